(** * Property C63 *)
From Coq Require Import ZArith Bool List String Arith Lia.
From Verif Require Import PyVal PyValFacts PyDict PyDictFacts InfIO Freeze FreezeFacts.
Import ListNotations.
Local Open Scope list_scope.

(** [wf same x]: set elements and dictionary keys in [x] are hashable and
    distinct.  Along every path, the frozen object has what [x] has there:
    the same scalar or callable, or a sequence, set or dictionary of the same
    size. *)
Theorem C63_freeze_content : forall same x p s, wf same x ->
  ((exists y, reach x p y /\ sort_of y = s) <-> exists z, reach (deep_freeze same x) p z /\ sort_of z = s).
Proof. exact freeze_content. Qed.
Print Assumptions C63_freeze_content.

(** Nothing mutable is left anywhere. *)
Theorem C63_freeze_immutable : forall same x p z, wf same x -> reach (deep_freeze same x) p z -> ~ mutable z.
Proof. exact freeze_immutable. Qed.
Print Assumptions C63_freeze_immutable.

Theorem C63_freeze_idempotent : forall same x, wf same x ->
  deep_freeze same (deep_freeze same x) = deep_freeze same x.
Proof. exact freeze_idem. Qed.
Print Assumptions C63_freeze_idempotent.

(** [deep_copy] returns exactly when no datetime occurs; then the copy has the
    same content and container types, except that no frozen dictionary is left. *)
Theorem C63_copy : forall same x, wf same x ->
  ((exists y, deep_copy same x = Ret y) <-> forall d, ~ occurs x (Scal (VDate d))) /\
  forall y, deep_copy same x = Ret y ->
    (forall p s f, (exists z, reach x p z /\ sort_of z = s /\ flavor_of z = f) <->
                   exists z, reach y p z /\ sort_of z = s /\ flavor_of z = f) /\
    (forall p l, ~ reach y p (FDct l)).
Proof. exact copy_spec. Qed.
Print Assumptions C63_copy.

(** Round trip: same content, lists and sets come back as tuples and
    frozensets. *)
Theorem C63_round_trip : forall same x, wf same x -> (forall d, ~ occurs x (Scal (VDate d))) ->
  exists y, deep_copy same (deep_freeze same x) = Ret y /\
    (forall p s, (exists z, reach x p z /\ sort_of z = s) <-> exists z, reach y p z /\ sort_of z = s) /\
    (forall p z, reach y p z -> flavor_of z <> FLst /\ flavor_of z <> FPSet).
Proof. exact copy_of_frozen. Qed.
Print Assumptions C63_round_trip.

(** Datetimes, legitimate default values, cannot be copied. *)
Theorem C63_refuted : forall same, exists x, wf same x /\ deep_copy same (deep_freeze same x) = Raise.
Proof.
  intros same. exists (Dct [(Scal (VStr "date"), Scal (VDate 3%Z))]). split.
  - simpl. tauto.
  - reflexivity.
Qed.
Print Assumptions C63_refuted.

(** [dict_overlay d1 d2]: the second dictionary wins, the rest is the first. *)
Theorem C63_overlay : forall K V (eqb : K -> K -> bool) (d1 d2 : list (K * V)) k,
  (forall a, eqb a a = true) -> (forall a b, eqb a b = eqb b a) ->
  (forall a b c, eqb a b = true -> eqb b c = true -> eqb a c = true) -> keys_distinct eqb (map fst d2) ->
  dget eqb (dict_overlay eqb d1 d2) k = match dget eqb d2 k with Some v => Some v | None => dget eqb d1 k end.
Proof. exact overlay_get. Qed.
Print Assumptions C63_overlay.

(** ** Non-vacuity *)

Definition fz_same (a b : obj) : bool :=
  match a, b with
  | Scal v, Scal w => pyeq v w
  | Tup [Scal a1; Scal a2], Tup [Scal b1; Scal b2] => pyeq a1 b1 && pyeq a2 b2
  | _, _ => false
  end.
Definition fz_s (s : string) : obj := Scal (VStr s).
Definition fz : obj :=
  Dct [(fz_s "a", Lst [fz_s "x"; Tup [Scal VNone; Lst []]]);
       (Tup [fz_s "a"; fz_s "b"], PSet [fz_s "p"; Tup [fz_s "q"; fz_s "q"]]);
       (Scal VNone, FDct [(fz_s "k", Lst [Dct []])])].

Example C63_ex : wf fz_same fz /\
  deep_freeze fz_same fz =
  FDct [(fz_s "a", Tup [fz_s "x"; Tup [Scal VNone; Tup []]]);
        (Tup [fz_s "a"; fz_s "b"], FSet [fz_s "p"; Tup [fz_s "q"; fz_s "q"]]);
        (Scal VNone, FDct [(fz_s "k", Tup [FDct []])])] /\
  deep_copy fz_same (deep_freeze fz_same fz) =
  Ret (Dct [(fz_s "a", Tup [fz_s "x"; Tup [Scal VNone; Tup []]]);
        (Tup [fz_s "a"; fz_s "b"], FSet [fz_s "p"; Tup [fz_s "q"; fz_s "q"]]);
        (Scal VNone, Dct [(fz_s "k", Tup [Dct []])])]) /\
  reach fz [Key (fz_s "a"); At 1; At 0] (Scal VNone) /\
  dict_overlay Nat.eqb [(1, 10); (2, 20)] [(2, 5); (3, 7)] = [(1, 10); (2, 5); (3, 7)].
Proof.
  split; [| split; [vm_compute; reflexivity | split; [vm_compute; reflexivity | split; [| reflexivity]]]].
  - simpl. repeat split; auto; try (intros k' [<- | [<- | []]]; reflexivity); try (intros k' [<- | []]; reflexivity).
    all: intros k' [].
  - eapply reach_val; [left; reflexivity | now left |]. eapply reach_seq; [left; reflexivity | reflexivity |].
    eapply reach_seq; [right; reflexivity | reflexivity |]. constructor.
Qed.
