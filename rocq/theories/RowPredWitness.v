(** * Row predicates: concrete cases. *)
From Coq Require Import ZArith Bool List String.
From Verif Require Import PyVal PyDict TypeDict Data WfCheck FindTypes FK Factory FactoryFacts FactoryWitness
  InfIO Params RowPred RowPredFacts RowPredMore RowPredPan RowPredParam RowPredSpec.
Import ListNotations.
Local Open Scope string_scope.
Local Open Scope list_scope.

Definition int (z : Z) : value := VNum (of_int z).

(** Function 0: is the cell of v at least the keyword argument?  Function 1:
    a complaint about negative cells, an exception for 7. *)
Definition rw_pred (n : nat) (row : list (string * value)) (k : nat) : called value :=
  match dget_or String.eqb row "v" VNone with
  | VNum x =>
      match n with
      | 0 => Returned (VBool (num_leb (of_int (Z.of_nat k)) x))
      | _ => if num_leb (of_int 7) x then Raised "boom"
             else if num_ltb x (of_int 0) then Returned (VStr "negative") else Returned (VBool true)
      end
  | _ => Returned VNone
  end.

(** Maker 0 passes on what it is given, maker 1 raises, others return no dict. *)
Definition rw_maker (n : nat) (d : nat) : called (kwres nat) :=
  match n with 0 => Returned (KDict d) | 1 => Raised "bad maker" | _ => Returned KOther end.

Definition rw_show (v : value) : string := match v with VStr s => s | _ => "?" end.

Definition rw_sch : schema := [("t", mkT ["k"] ["v"]); ("u", mkT [] ["v"])].
Definition rw_dat : dat := fun t =>
  if String.eqb t "t" then Keyed [([VStr "a"], [int 5]); ([VStr "b"], [int (-1)]); ([VStr "c"], [int 7])]
  else Listed [[int 1]; [int 9]].

Definition rw_preds : list (string * list (value * rpi)) :=
  [("t", [(VStr "p", mkRpi (PUser 0) (Some 0) "Boolean"); (VStr "q", mkRpi (PUser 1) None "Error Message");
          (VStr "r", mkRpi (PUser 0) (Some 1) "Boolean")]);
   ("u", [(VStr "p", mkRpi (PUser 0) (Some 0) "Boolean")])].

Definition rw_find (handled : bool) :=
  find_rows nat nat 0 rw_pred rw_maker (Returned (inl 100)) (fun _ => false) 2 rw_show (fun _ => VNone) handled.
Definition rw_pan (handled : bool) :=
  pan_find_rows nat nat 0 rw_pred rw_maker (Returned (inl 100)) (fun _ => false) 2 rw_show (fun _ => VNone) handled.

Lemma rw_wf : wf_preds rw_preds.
Proof.
  split.
  - cbn. repeat constructor; cbn; intuition discriminate.
  - intros t ps [[= <- <-]|[[= <- <-]|[]]]; cbn; repeat split; try exact I; intros k' H;
      repeat (destruct H as [<-|H]; [reflexivity|]); try contradiction.
Qed.

Lemma rw_responds : forall t ps pn r, In (t, ps) rw_preds -> In (pn, r) ps -> responds r.
Proof.
  intros t ps pn r H H'. unfold responds. cbn in H.
  destruct H as [H|[H|[]]]; injection H as <- <-; cbn in H'.
  - destruct H' as [H'|[H'|[H'|[]]]]; injection H' as <- <-; auto.
  - destruct H' as [H'|[]]; injection H' as <- <-; auto.
Qed.

(** ** convert_dat *)

(** A factory with one predicate whose maker is 0, its clone, and the clone
    with one more predicate that uses the same maker (or replaces the first). *)
Definition cv_f := the (build [("t", two_fields)] [OPred "t" (Some (mkPred 0 (Some 0) "Boolean")) (VStr "p")]).
Definition cv_g := the (clone np cv_f (f_decl cv_f) None).
Definition cv_h := the (add_pred cv_g "t" (Some (mkPred 0 (Some 0) "Boolean")) (VStr "q")).
Definition cv_h' := the (add_pred cv_g "t" (Some (mkPred 0 (Some 0) "Boolean")) (VStr "p")).
Definition cv_sch : schema := [("t", mkT ["k"] ["v"])].
Definition cv_dat : dat := fun _ => Keyed [([VStr "a"], [int 5])].

(** convert_dat turns the dat 2 into 100. *)
Definition cv_find (h : factory) :=
  find_rows nat nat 0 rw_pred rw_maker (Returned (inl 100)) (is_converted (Some (clone_convset cv_g))) 2 rw_show
    (good_parameter np h) false.

Lemma cv_clone : clone np cv_f (f_decl cv_f) None = Some cv_g.
Proof. vm_compute. reflexivity. Qed.
Lemma cv_step : add_pred cv_g "t" (Some (mkPred 0 (Some 0) "Boolean")) (VStr "q") = Some cv_h.
Proof. vm_compute. reflexivity. Qed.
Lemma cv_step' : add_pred cv_g "t" (Some (mkPred 0 (Some 0) "Boolean")) (VStr "p") = Some cv_h'.
Proof. vm_compute. reflexivity. Qed.
Lemma cv_reach : reachable np cv_f.
Proof. apply the_reachable. vm_compute. discriminate. Qed.

(** ** A parameters table *)

Definition pm_f := the (build [("parameters", two_fields)]
  [OAddParam (VStr "size") (int 5) (mkArgs true true false (int 0) (VNum PInf) false (AList []) false false) true;
   OAddParam (VStr "name") (VStr "x") nonnull_args false;
   OPred "parameters" (Some (mkPred 0 None "Boolean")) (VStr "Good Name/Value Check")]).
Definition pm_dat : dat := fun _ =>
  Keyed [([VStr "size"], [int (-1)]); ([VStr "name"], [int 0]); ([VStr "nome"], [int 0])].
Definition pm_find :=
  find_rows nat nat 0 rw_pred rw_maker (Returned (inl 100)) (fun _ => false) 2 rw_show (good_parameter np pm_f) false.
