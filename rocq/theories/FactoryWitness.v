(** * Round trip theorem (C19) and witnesses for the factory properties. *)
From Coq Require Import ZArith Bool List String Ascii Arith Lia Permutation.
From Verif Require Import PyVal PyValFacts PyDict PyDictFacts PyStr ListFacts TypeDict TypeDictFacts Data
  FindTypes FindTypesFacts FK FKFacts ImpliedFacts WfCheck GraphFacts Factory FactoryFacts FactoryMore FactoryClone
  FactoryEdit FactoryColumns FactoryRename FactoryHist.
Import ListNotations.
Local Open Scope string_scope.
Local Open Scope list_scope.

Theorem roundtrip_ok : forall parses f tables, reachable parses f -> string_params f -> no_empty_fk f ->
  Permutation (f_decl f) tables ->
  exists g, create parses (schema_in_order f tables) = Some g /\
    (forall t, decl_of (f_decl g) t = decl_of (f_decl f) t) /\
    f_fks g = f_fks f /\ f_params g = f_params f /\
    (forall t x, shown_default g t x = shown_default f t x /\ shown_type g t x = shown_type f t x /\
                 shown_tip g t x = shown_tip f t x) /\
    same_settings f g.
Proof.
  intros parses f tables Hr Hs Hm Hp. pose proof (reachable_inv _ _ Hr) as Hf.
  pose proof (inv_decl _ _ Hf) as Hdok. pose proof (decl_ok_nodup _ Hdok) as Hnd.
  assert (same_lookups (f_decl f) tables) as Hl by (intros t; now apply decl_of_perm).
  pose proof (schema_good parses f tables Hf Hs Hm Hp) as Hgood.
  destruct (create_ok parses _ Hgood) as (g & Hc & _ & Gd & Gf & Gp & Gdv & Gty & Gti & G1 & G2 & G3 & G4 & _).
  cbn [s_tables s_fks s_params s_defaults s_types s_tips s_flag s_xlsx s_dup s_auto schema_in_order] in *.
  exists g. split; [exact Hc |]. split; [intros t; rewrite Gd; apply Hl |]. split; [exact Gf |].
  split; [exact Gp |]. split.
  - intros t x. split; [| split].
    + rewrite Gdv. rewrite (zero_defaults_same (f_decl f) tables t x Hdok) by (auto; eapply decl_ok_perm; eauto).
      apply (defaults_cover parses); auto.
    + apply Gty.
    + rewrite Gti. apply friendly_tips_get. apply (proj1 (inv_tips _ _ Hf)).
  - repeat split; auto.
Qed.

Definition np : value -> bool := fun _ => false.

Definition build (d : list (string * tdecl)) (ops : list op) : option factory :=
  match init d with Some f => Some (run np f ops) | None => None end.

Lemma build_reachable : forall d ops f, build d ops = Some f -> reachable np f.
Proof.
  intros d ops f H. unfold build in H. destruct (init d) as [f0 |] eqn:E; [| discriminate]. injection H as <-.
  exists d, f0, ops. auto.
Qed.

Lemma no_generic_check : forall f,
  forallb (fun td => match snd td with Generic => false | _ => true end) (f_decl f) = true -> no_generic f.
Proof.
  intros f H t E. unfold decl_of in E. apply dget_In in E as (t' & _ & Hin).
  rewrite forallb_forall in H. apply H in Hin. discriminate.
Qed.

Definition two_fields : tdecl := Fields (mkT ["k"] ["v"]).
Definition the (o : option factory) : factory :=
  match o with Some f => f | None => mkF [] [] [] [] [] [] [] [] false VNone VNone VNone VNone false end.

Lemma the_reachable : forall d ops, build d ops <> None -> reachable np (the (build d ops)).
Proof.
  intros d ops H. destruct (build d ops) as [f |] eqn:E; [| congruence]. eapply build_reachable; eauto.
Qed.

(** A numeric parameter name. *)
Definition w_param := the (build [("parameters", two_fields)]
  [OAddParam (VNum (of_int 1)) (VNum (of_int 5)) nonnull_args true]).
(** Foreign keys a -> b -> c whose combination maps no field at all. *)
Definition w_empty := the (build
  [("a", Fields (mkT ["x"] [])); ("b", Fields (mkT ["y"] ["w"])); ("c", Fields (mkT [] ["z"]))]
  [OAddFk "a" "b" (Simple "x" "y"); OAddFk "b" "c" (Simple "w" "z"); OImplied 10]).
Definition w_generic := the (build [("a", two_fields); ("g", Generic)] []).
Definition w_gens := the (build [("a", two_fields); ("s", Fields (mkT [] ["v"]))] [OSetGens ["s"]]).
Definition w_predgen := the (build [("a", two_fields); ("s", Fields (mkT [] ["v"]))]
  [OPred "s" (Some (mkPred 0 None "Boolean")) VNone; OSetGens ["s"]]).
Definition w_single := the (build [("a", Fields (mkT ["k"] []))] []).
Definition w_used := the (build [("parameters", two_fields)]
  [OAddParam (VStr "p") (VNum (of_int 5)) nonnull_args true; OUse]).
Definition w_half := the (build [("a", two_fields); ("b", two_fields)] []).

Theorem w_param_refutes : exists f, reachable np f /\ no_empty_fk f /\ create np (schema_in_order f (f_decl f)) = None.
Proof.
  exists w_param. split; [apply the_reachable; vm_compute; discriminate |]. split; [intros k H; vm_compute in H; contradiction |]. vm_compute. reflexivity.
Qed.

Theorem w_empty_refutes : exists f, reachable np f /\ string_params f /\ create np (schema_in_order f (f_decl f)) = None.
Proof.
  exists w_empty. split; [apply the_reachable; vm_compute; discriminate |]. split; [intros n d [] |]. vm_compute. reflexivity.
Qed.

Theorem w_generic_refutes : exists f keep, reachable np f /\ clonable f /\ keep <> [] /\
  (forall t, In t keep -> in_tables f t) /\ f_gens f = [] /\ clone np f (f_decl f) (Some keep) = None.
Proof.
  exists w_generic, ["a"]. split; [apply the_reachable; vm_compute; discriminate |]. split.
  - split; [intros n d [] |]. split; [intros k [] |]. intros t n [].
  - split; [discriminate |]. split; [| split; vm_compute; reflexivity].
    intros t [<- | []]. unfold in_tables. vm_compute. discriminate.
Qed.

Theorem w_gens_refutes : exists f keep, reachable np f /\ clonable f /\ no_generic f /\ keep <> [] /\
  (forall t, In t keep -> in_tables f t) /\ clone np f (f_decl f) (Some keep) = None.
Proof.
  exists w_gens, ["a"]. split; [apply the_reachable; vm_compute; discriminate |]. split.
  - split; [intros n d [] |]. split; [intros k [] |]. intros t n _. reflexivity.
  - split; [| split; [discriminate |]; split; [intros t [<- | []]; unfold in_tables; vm_compute; discriminate | vm_compute; reflexivity]].
    apply no_generic_check. vm_compute. reflexivity.
Qed.

Theorem w_predgen_refutes : exists f, reachable np f /\ no_generic f /\ string_params f /\ no_empty_fk f /\
  clone np f (f_decl f) None = None.
Proof.
  exists w_predgen. split; [apply the_reachable; vm_compute; discriminate |]. split.
  - apply no_generic_check. vm_compute. reflexivity.
  - split; [intros n d [] |]. split; [intros k [] |]. vm_compute. reflexivity.
Qed.

Theorem w_single_refutes : exists f t x y, reachable np f /\ clonable f /\ no_generic f /\
  field_of (f_decl f) t x /\ (forall tables, clone_rename_column np f (f_decl f) tables t x y = None).
Proof.
  exists w_single, "a", "k", "kk". split; [apply the_reachable; vm_compute; discriminate |]. split.
  - split; [intros n d [] |]. split; [intros k [] |]. intros t n [].
  - split; [| split; [| intros tables; vm_compute; reflexivity]].
    + apply no_generic_check. vm_compute. reflexivity.
    + exists (mkT ["k"] []). split; [reflexivity | simpl; auto].
Qed.

Theorem w_rename_params_refutes : exists f x y, reachable np f /\ clonable f /\ no_generic f /\
  field_of (f_decl f) "parameters" x /\
  (forall tables, clone_rename_column np f (f_decl f) tables "parameters" x y = None).
Proof.
  exists w_used, "v", "w". split; [apply the_reachable; vm_compute; discriminate |]. split.
  - split; [intros n d [E | []]; injection E; eauto |]. split; [intros k [] |]. intros t n [].
  - split; [| split; [| intros tables; vm_compute; reflexivity]].
    + apply no_generic_check. vm_compute. reflexivity.
    + exists (mkT ["k"] ["v"]). split; [reflexivity | simpl; auto].
Qed.

Theorem w_used_refutes : exists f o, reachable np f /\ f_used f = true /\ snd (step np f o) = false /\
  f_params (fst (step np f o)) <> f_params f.
Proof.
  exists w_used, (ORemParam (VStr "p")). split; [apply the_reachable; vm_compute; discriminate |].
  split; [reflexivity |]. split; [vm_compute; reflexivity |]. vm_compute. discriminate.
Qed.

Theorem w_half_refutes : exists f o t x, reachable np f /\ snd (step np f o) = true /\
  shown_default (fst (step np f o)) t x <> shown_default f t x.
Proof.
  exists w_half, (OSetDefaults [("a", [("v", VStr "new")]); ("b", [("oops", VStr "new")])]), "a", "v".
  split; [apply the_reachable; vm_compute; discriminate |]. split; [vm_compute; reflexivity |]. vm_compute. discriminate.
Qed.
