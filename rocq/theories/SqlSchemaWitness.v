(** * Concrete SQLite schema texts. *)
From Coq Require Import ZArith Bool List String Ascii Arith Lia Permutation.
From Verif Require Import PyVal PyValFacts PyDict PyDictFacts PyStr ListFacts TypeDict Data FindTypes FindTypesFacts FK FKFacts Graph GraphFacts
  Obj ObjFacts ObjMore WfCheck Factory FactoryFacts InfIO InfIOFacts Params Names NamesFacts Utils Ampl Json ObjRows JsonFacts TripFacts
  Sql SqlText SqlFacts SqlMore Pg PgFacts InfWitness JsonWitness SqlWitness PgWitness FileDb FileDbFacts FileDbWitness SqlSchema SqlRead SqlSchemaFacts SqlSchemaMore.
Import ListNotations.
Local Open Scope string_scope.
Local Open Scope list_scope.

(** [str()] of strings and of a few numbers. *)
Definition sc_show (v : value) : text :=
  match v with VStr s => txt s | _ => if value_eqb v (int 3) then txt "3" else txt "0" end.

Definition lacks (c : ascii) (x : text) : bool := negb (existsb (Ascii.eqb c) x).
Lemma lacks_ok : forall c x, lacks c x = true -> ~ In c x.
Proof.
  intros c x H Hin. unfold lacks in H. apply negb_true_iff in H. assert (existsb (Ascii.eqb c) x = true) as E; [| now rewrite E in H].
  apply existsb_exists. exists c. split; auto. apply Ascii.eqb_refl.
Qed.

Definition names_lack (c : ascii) (f : factory) : bool :=
  forallb (fun tts => lacks c (txt (fst tts)) && forallb (fun x => lacks c (txt x)) (tfields (snd tts)) &&
    forallb (fun x => lacks c (sc_show (cell_default (f_defaults f) (fst tts) x))) (tdf (snd tts))) (plain_schema f).
Lemma names_lack_ok : forall c f, names_lack c f = true -> forall t ts, In (t, ts) (plain_schema f) ->
  ~ In c (txt t) /\ (forall x, In x (tfields ts) -> ~ In c (txt x)) /\ forall x, In x (tdf ts) -> ~ In c (sc_show (cell_default (f_defaults f) t x)).
Proof.
  intros c f H t ts Hin. unfold names_lack in H. rewrite forallb_forall in H. specialize (H _ Hin). cbn [fst snd] in H.
  rewrite !andb_true_iff, !forallb_forall in H. destruct H as [[H1 H2] H3]. split; [now apply lacks_ok |].
  split; intros x Hx; apply lacks_ok; auto.
Qed.

Lemma sc_fks : one_to_one_fks wp_fac.
Proof.
  intros k Hk. assert (f_fks wp_fac = [mkFk "child" "parent" [("Code", "Code")]]) as E by (vm_compute; reflexivity).
  rewrite E in Hk. destruct Hk as [<- | []]. split.
  - exists (mkT ["Code"; "No."] ["Amount"]), (mkT ["Code"] ["Cap"; "Day"]). rewrite wp_plain. cbn [fk_native fk_foreign fk_map].
    split; [simpl; auto |]. split; [simpl; auto |]. split; [discriminate |]. split.
    + intros n x [Ex | []]. injection Ex as <- <-. simpl. auto.
    + simpl. constructor; [intros [] | constructor].
  - simpl. constructor; [intros [] | constructor].
Qed.

Lemma sc_closed : closed_names sc_show wp_fac.
Proof.
  assert (names_lack "]"%char wp_fac = true) as H by (vm_compute; reflexivity). unfold closed_names, no_close.
  exact (names_lack_ok "]"%char wp_fac H).
Qed.
Lemma sc_semi_free : semi_free_names sc_show wp_fac.
Proof.
  assert (names_lack semi wp_fac = true) as H by (vm_compute; reflexivity). unfold semi_free_names.
  exact (names_lack_ok semi wp_fac H).
Qed.

(** A field whose name closes its own bracket. *)
Definition sc_close : factory := wp_base [("items", Fields (mkT [] ["x], [y"]))].
(** A default value with a semicolon. *)
Definition sc_semi : factory :=
  run (fun _ => false) (wp_base [("items", Fields (mkT ["Name"] ["x"]))]) [OSetDefault "items" "x" (VStr "a;b")].
Definition sc_obj : obj := fun t => OKeyed [].
