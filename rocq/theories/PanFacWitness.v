(** * Witnesses for the PanDatFactory properties. *)
From Coq Require Import ZArith Bool List String Ascii Arith Lia Permutation.
From Verif Require Import PyVal PyValFacts PyDict PyDictFacts PyStr ListFacts TypeDict TypeDictFacts Data
  FindTypes FindTypesFacts FK FKFacts ImpliedFacts WfCheck GraphFacts Factory FactoryFacts FactoryMore FactoryClone
  FactoryEdit FactoryColumns FactoryRename FactoryHist FactoryWitness PanFac PanFacFacts PanFacMore PanFacKinds.
Import ListNotations.
Local Open Scope string_scope.
Local Open Scope list_scope.

Definition pan_build (d : list (string * tdecl)) (ops : list op) : option factory :=
  match init d with Some f => Some (pan_run np f ops) | None => None end.

Lemma pan_the_reachable : forall d ops, pan_build d ops <> None -> pan_reachable np (the (pan_build d ops)).
Proof.
  intros d ops H. unfold pan_build in *. destruct (init d) as [f0 |] eqn:E; [| congruence]. exists d, f0, ops. auto.
Qed.

Definition pw_param := the (pan_build [("parameters", two_fields)]
  [OAddParam (VNum (of_int 1)) (VNum (of_int 5)) nonnull_args true]).
Definition pw_generic := the (pan_build [("a", two_fields); ("g", Generic)] []).
Definition pw_genpred := the (pan_build [("a", two_fields); ("g", Generic)]
  [OPred "g" (Some (mkPred 0 None "Boolean")) VNone]).
Definition pw_single := the (pan_build [("a", Fields (mkT ["k"] []))] []).
Definition pw_used := the (pan_build [("parameters", two_fields)]
  [OAddParam (VStr "p") (VNum (of_int 5)) nonnull_args true; OUse]).
Definition pw_half := the (pan_build [("a", two_fields)] []).
Definition w_links := the (build [("a", two_fields); ("b", Fields (mkT ["k"; "j"] []))]
  [OAddFk "b" "a" (Simple "k" "k"); OLinks]).
Definition w_none := the (build [] []).
Definition pw_none := the (pan_build [] []).

Theorem pw_param_refutes : exists f, pan_reachable np f /\ pan_create np (schema_in_order f (f_decl f)) = None.
Proof. exists pw_param. split; [apply pan_the_reachable; vm_compute; discriminate | vm_compute; reflexivity]. Qed.

Theorem pw_generic_refutes : exists f keep, pan_reachable np f /\ string_params f /\ keep <> [] /\
  (forall t, In t keep -> in_tables f t) /\ pan_clone np f (f_decl f) (Some keep) = None.
Proof.
  exists pw_generic, ["a"; "g"]. split; [apply pan_the_reachable; vm_compute; discriminate |].
  split; [intros n d [] |]. split; [discriminate |]. split; [| vm_compute; reflexivity].
  intros t [<- | [<- | []]]; unfold in_tables; vm_compute; discriminate.
Qed.

Theorem pw_single_refutes : exists f t x y, pan_reachable np f /\ string_params f /\ no_generic f /\
  field_of (f_decl f) t x /\ (forall tables, pan_rename_column np f (f_decl f) tables t x y = None).
Proof.
  exists pw_single, "a", "k", "kk". split; [apply pan_the_reachable; vm_compute; discriminate |].
  split; [intros n d [] |]. split; [apply no_generic_check; vm_compute; reflexivity |].
  split; [exists (mkT ["k"] []); split; [reflexivity | simpl; auto] |]. intros tables. vm_compute. reflexivity.
Qed.

Theorem pw_rename_params_refutes : exists f x y, pan_reachable np f /\ string_params f /\ no_generic f /\
  field_of (f_decl f) "parameters" x /\
  (forall tables, pan_rename_column np f (f_decl f) tables "parameters" x y = None).
Proof.
  exists pw_used, "v", "w". split; [apply pan_the_reachable; vm_compute; discriminate |].
  split; [intros n d [E | []]; injection E; eauto |]. split; [apply no_generic_check; vm_compute; reflexivity |].
  split; [exists (mkT ["k"] ["v"]); split; [reflexivity | simpl; auto] |]. intros tables. vm_compute. reflexivity.
Qed.

Theorem w_links_refutes : exists f, reachable np f /\ string_params f /\ no_empty_fk f /\
  forall conv, tic_to_pan np f (f_decl f) None conv = None.
Proof.
  exists w_links. split; [apply the_reachable; vm_compute; discriminate |]. split; [intros n d [] |].
  split; [intros k H; vm_compute in H; destruct H as [<- | []]; discriminate |]. intros [|]; vm_compute; reflexivity.
Qed.

Theorem pw_genpred_refutes : exists f, pan_reachable np f /\ string_params f /\
  forall conv, pan_to_tic np f (f_decl f) None conv = None.
Proof.
  exists pw_genpred. split; [apply pan_the_reachable; vm_compute; discriminate |]. split; [intros n d [] |].
  intros [|]; vm_compute; reflexivity.
Qed.

(** A table that the constructor would take. *)
Lemma b_welcome : forall f, map fst (f_decl f) = ["a"; "g"] \/ map fst (f_decl f) = [] -> table_welcome f "b" ["k"] ["v"].
Proof.
  intros f H. split; [reflexivity |]. split; [reflexivity |]. split.
  { destruct H as [-> | ->]; cbn; [| auto]. intros [E | [E | []]]; discriminate. }
  split; [discriminate |]. apply (nodup_b_ok String.eqb String.eqb_eq). reflexivity.
Qed.

Theorem w_table_generic_refutes : exists f t pk df, reachable np f /\ clonable f /\ table_welcome f t pk df /\
  (exists t0, in_tables f t0) /\ clone_add_table np f (f_decl f) t pk df = None.
Proof.
  exists w_generic, "b", ["k"], ["v"]. split; [apply the_reachable; vm_compute; discriminate |]. split.
  - split; [intros n d [] |]. split; [intros k [] |]. intros t n [].
  - split; [apply b_welcome; left; reflexivity |]. split; [exists "a"; unfold in_tables; vm_compute; discriminate |].
    vm_compute. reflexivity.
Qed.

Theorem w_table_none_refutes : exists f t pk df, reachable np f /\ clonable f /\ no_generic f /\ table_welcome f t pk df /\
  clone_add_table np f (f_decl f) t pk df = None.
Proof.
  exists w_none, "b", ["k"], ["v"]. split; [apply the_reachable; vm_compute; discriminate |]. split.
  - split; [intros n d [] |]. split; [intros k [] |]. intros t n [].
  - split; [apply no_generic_check; vm_compute; reflexivity |]. split; [apply b_welcome; right; reflexivity |].
    vm_compute. reflexivity.
Qed.

Theorem pw_table_generic_refutes : exists f t pk df, pan_reachable np f /\ string_params f /\ table_welcome f t pk df /\
  (exists t0, in_tables f t0) /\ pan_add_table np f (f_decl f) t pk df = None.
Proof.
  exists pw_generic, "b", ["k"], ["v"]. split; [apply pan_the_reachable; vm_compute; discriminate |].
  split; [intros n d [] |].
  split; [apply b_welcome; left; reflexivity |]. split; [exists "a"; unfold in_tables; vm_compute; discriminate |].
  vm_compute. reflexivity.
Qed.

Theorem pw_table_none_refutes : exists f t pk df, pan_reachable np f /\ string_params f /\ no_generic f /\
  table_welcome f t pk df /\ pan_add_table np f (f_decl f) t pk df = None.
Proof.
  exists pw_none, "b", ["k"], ["v"]. split; [apply pan_the_reachable; vm_compute; discriminate |].
  split; [intros n d [] |]. split; [apply no_generic_check; vm_compute; reflexivity |].
  split; [apply b_welcome; right; reflexivity |]. vm_compute. reflexivity.
Qed.

Theorem pw_used_refutes : exists f o, pan_reachable np f /\ f_used f = true /\ snd (pan_step np f o) = false /\
  f_params (fst (pan_step np f o)) <> f_params f.
Proof.
  exists pw_used, (ORemParam (VStr "p")). split; [apply pan_the_reachable; vm_compute; discriminate |].
  split; [reflexivity |]. split; [vm_compute; reflexivity |]. vm_compute. discriminate.
Qed.

Theorem pw_half_refutes : exists f o t x, pan_reachable np f /\ snd (pan_step np f o) = true /\
  shown_default (fst (pan_step np f o)) t x <> shown_default f t x.
Proof.
  exists pw_half, (OSetDefaults [("a", [("v", VStr "new")]); ("b", [("oops", VStr "new")])]), "a", "v".
  split; [apply pan_the_reachable; vm_compute; discriminate |]. split; [vm_compute; reflexivity |]. vm_compute. discriminate.
Qed.
