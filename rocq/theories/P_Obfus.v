(** * Properties C52, C53, C76, C77: obfusimplify. *)
From Coq Require Import ZArith Bool List String Ascii Arith Lia Permutation.
From Verif Require Import PyVal PyValFacts PyDict PyDictFacts ListFacts PyStr Data FindTypes FindTypesFacts
  FK FKFacts RemoveFacts ImpliedFacts WfCheck InfIO Ampl Obfus ObfusNames ObfusFacts ObfusCopy ObfusMore ObfusWitness.
Import ListNotations.
Local Open Scope string_scope.
Local Open Scope list_scope.

(** C52. When obfusimplify returns, no name stands for two entities, no entity
    has two names, and exactly the keys of the renamed tables are named. *)
Theorem C52_bijection : forall (order : list string -> list string) (sorted : list value -> outcome (list value)),
  (forall l, Permutation (order l) l) -> (forall l l', sorted l = Ret l' -> Permutation l l') ->
  forall sch fks0 fks user skip d copy ren,
  wf_schema sch -> wf_dat sch d -> NoDup (map fst user) ->
  obfusimplify order sorted sch fks0 fks user skip d = Ret (copy, ren) ->
  NoDup (map fst ren) /\
  (forall n t v n' t' v', In (n, (t, v)) ren -> In (n', (t', v')) ren -> (n = n' <-> t = t' /\ pyeq v v' = true)) /\
  (forall n e v, In (n, (e, v)) ren -> renamed_table sch fks skip e /\ exists rid r, row_in (d e) rid [v] r) /\
  (forall e rid v r, renamed_table sch fks skip e -> row_in (d e) rid [v] r -> exists n, In (n, (e, v)) ren).
Proof.
  intros order sorted Ho Hso sch fks0 fks user skip d copy ren Hs Hd Hu H.
  destruct (obfus_renaming order sorted Ho Hso sch fks0 fks user skip d copy ren Hs Hd Hu H) as (rev & -> & B1 & B2 & B3 & B4).
  assert (forall n t v, In (n, (t, v)) (swapped rev) <-> In ((t, v), n) rev) as Hin.
  { intros n t v. unfold swapped. rewrite in_map_iff. split.
    - intros ([[a b] c] & E & Hi). injection E as <- <- <-. exact Hi.
    - intros Hi. exists ((t, v), n). auto. }
  refine (conj _ (conj _ (conj _ _))).
  - unfold swapped. now rewrite map_map.
  - intros n t v n' t' v' H1 H2. apply Hin in H1, H2. rewrite (B1 _ _ _ _ H1 H2). unfold tv_eqb. cbn [fst snd].
    now rewrite andb_true_iff, String.eqb_eq.
  - intros n e v Hi. apply Hin in Hi. eauto.
  - intros e rid v r He Hr. destruct (B4 e rid v r He Hr) as [n Hn]. exists n. now apply Hin.
Qed.
Print Assumptions C52_bijection.

(** The closing assertion on the number of renamings never fires. *)
Theorem C52_assertion : forall (order : list string -> list string) (sorted : list value -> outcome (list value)),
  (forall l, Permutation (order l) l) -> (forall l l', sorted l = Ret l' -> Permutation l l') ->
  forall sch fks user skip d pre rev,
  wf_schema sch -> wf_dat sch d -> NoDup (map fst user) ->
  prepends order sch fks user skip = Ret pre -> reverse_renamings sorted d pre [] = Ret rev ->
  List.length (dict_of text_eqb (map (fun kv => (snd kv, fst kv)) rev)) = List.length rev.
Proof.
  intros order sorted Ho Hso sch fks user skip d pre rev Hs Hd Hu Hp Hr.
  destruct (renaming_bijective order sorted Ho Hso sch fks user skip d pre rev Hs Hd Hu Hp Hr) as [(_ & Hb & _) _].
  change (map (fun kv : string * value * text => (snd kv, fst kv)) rev) with (swapped rev).
  rewrite swapped_dict by auto. apply map_length.
Qed.
Print Assumptions C52_assertion.

Definition id_order (l : list string) : list string := l.

Lemma id_perm : forall l, Permutation (id_order l) l.
Proof. intros l. apply Permutation_refl. Qed.

Example C52_ex :
  exists copy ren, obfusimplify id_order sort_str diet_sch diet_fks0 diet_fks [("food", txt "Q")] [] diet_dat = Ret (copy, ren) /\
  wf_schema diet_sch /\ wf_dat diet_sch diet_dat /\
  map (fun nv => (string_of_list_ascii (fst nv), snd nv)) ren =
    [("Q1", ("food", VStr "egg")); ("Q2", ("food", VStr "pie")); ("N1", ("nutrient", VStr "fat"))] /\
  copy "menu" = Listed [[VStr "monday"; VStr "Q2"; VStr "N1"]] /\
  copy "quantity" = Keyed [([VStr "Q2"; VStr "N1"], [VStr "lots"])].
Proof.
  eexists. eexists. split; [vm_compute; reflexivity |].
  split; [now apply wf_schema_ok |]. split; [now apply wf_dat_ok |].
  refine (conj _ (conj _ _)); vm_compute; reflexivity.
Qed.

(** C53. Twenty-six entity tables whose names hold no letter but I exhaust the
    one-letter names; the next name is not found but raises. *)
Theorem C53_refuted : exists sch,
  wf_schema sch /\ (forall t, In t (map fst sch) -> renamed_table sch [] [] t) /\
  forall order : list string -> list string, (forall l, Permutation (order l) l) ->
  prepends order sch [] [] [] = Raise.
Proof.
  exists i_sch. split; [now apply wf_schema_ok |]. split.
  { intros t Ht. apply entity_In; [now apply wf_schema_ok |]. exact Ht. }
  intros order Ho. unfold prepends. cbn [existsb forallb map set_of fold_left List.length Nat.eqb negb].
  match goal with |- assign (order ?l) [] = _ => change l with i_tables end.
  apply too_many_letterless.
  - intros t Ht. apply (Permutation_in _ (Ho i_tables)) in Ht.
    cut (forallb (fun t => match from_table t with [] => true | _ => false end) i_tables = true).
    + rewrite forallb_forall. intros Hf. specialize (Hf t Ht). cbv beta in Hf. destruct (from_table t); [reflexivity | discriminate].
    + vm_compute. reflexivity.
  - apply (Permutation_NoDup (Permutation_sym (Ho i_tables))). now apply (nodup_b_ok String.eqb String.eqb_eq).
  - rewrite (Permutation_length (Ho i_tables)). unfold chars. cbn. lia.
Qed.
Print Assumptions C53_refuted.

(** With valid arguments, and no more renamed tables than 25 plus the number of
    usable letters in each table's name, every table gets a prefix. *)
Theorem C53_found : forall (order : list string -> list string) sch fks user skip,
  (forall l, Permutation (order l) l) -> wf_schema sch -> NoDup (map fst user) ->
  (forall t, In t skip -> renamed_table sch fks [] t) ->
  (forall t p, In (t, p) user -> renamed_table sch fks skip t /\ good_prepend p = true) ->
  NoDup (map snd user) ->
  (forall l t, NoDup l -> (forall e, In e l -> renamed_table sch fks skip e) -> renamed_table sch fks skip t ->
     List.length l <= List.length (from_table t) + 25) ->
  exists pre, prepends order sch fks user skip = Ret pre /\
    (forall e, In e (map fst pre) <-> renamed_table sch fks skip e) /\ NoDup (map snd pre) /\ incl user pre.
Proof.
  intros order sch fks user skip Ho Hs Hu Hsk Hus Hn Hl.
  destruct (prepends_total order sch fks user skip Ho Hs Hu Hsk Hus Hn Hl) as [pre Hp]. exists pre. split; auto.
  apply prepends_spec in Hp as (P1 & _ & P3 & _ & P5); auto.
Qed.
Print Assumptions C53_found.

Example C53_ex : wf_schema diet_sch /\ renamed_table diet_sch diet_fks [] "food" /\
  prepends id_order diet_sch diet_fks [("food", txt "N")] [] = Ret [("food", txt "N"); ("nutrient", txt "NU")].
Proof.
  split; [now apply wf_schema_ok |]. split; [| vm_compute; reflexivity].
  apply entity_In; [now apply wf_schema_ok |]. vm_compute. auto.
Qed.

(** C76. The copy is the original, row by row and in the same order, with every
    cell that refers to a renamed entity (as that entity's own key or through a
    foreign key) replaced by the entity's new name and every other cell kept;
    no rows are lost or merged. This needs every foreign key to be one to one:
    of two native fields mapped to one foreign field only the last is renamed. *)
Theorem C76_copy : forall (order : list string -> list string) (sorted : list value -> outcome (list value)),
  (forall l, Permutation (order l) l) -> (forall l l', sorted l = Ret l' -> Permutation l l') ->
  forall sch fks0 fks user skip d copy ren,
  wf_schema sch -> wf_dat sch d -> NoDup (map fst user) ->
  (forall g, In g fks -> NoDup (map fst (fk_map g)) /\ NoDup (map snd (fk_map g))) ->
  obfusimplify order sorted sch fks0 fks user skip d = Ret (copy, ren) ->
  exists ents, (forall e, In e ents <-> renamed_table sch fks skip e) /\
  wf_dat sch copy /\
  forall t ts, In (t, ts) sch -> Forall2 (row_renamed sch fks ents ren t ts) (rows_of (d t)) (rows_of (copy t)).
Proof. exact obfus_copy. Qed.
Print Assumptions C76_copy.

Theorem C76_refuted : exists n sch fks d copy ren,
  wf_schema sch /\ wf_dat sch d /\ (forall g, In g fks -> wf_fk sch g /\ simple_fk sch g = true) /\ add_implied n sch fks = Some fks /\
  find_foreign_key_failures sch fks d PInf = Some [] /\
  obfusimplify id_order sort_str sch fks fks [] [] d = Ret (copy, ren) /\
  ~ exists ents, (forall e, In e ents <-> renamed_table sch fks [] e) /\
      forall t ts, In (t, ts) sch -> Forall2 (row_renamed sch fks ents ren t ts) (rows_of (d t)) (rows_of (copy t)).
Proof.
  exists 1, twin_sch, twin_fks, twin_dat. eexists. eexists.
  split; [now apply wf_schema_ok |]. split; [now apply wf_dat_ok |]. split.
  { intros g [<- | []]. split; [| vm_compute; reflexivity]. now apply wf_fk_ok. }
  split; [vm_compute; reflexivity |]. split; [vm_compute; reflexivity |]. split; [vm_compute; reflexivity |].
  intros (ents & He & H). specialize (H "child" (mkT [] ["a"; "b"]) (or_intror (or_introl eq_refl))).
  vm_compute in H. inversion H as [| x y l l' Hr _ E1 E2]. subst.
  destruct (Hr "a" (VStr "egg")) as (v' & Hv & [(-> & Hno) | (e & n & v0 & _ & Hn & -> & _)]); [exists 0; split; reflexivity | |].
  - apply (Hno "parent"). split.
    + apply He. apply entity_In; [now apply wf_schema_ok |]. vm_compute. auto.
    + left. exists (mkFk "child" "parent" [("a", "x"); ("b", "x")]), "x". simpl. auto.
  - destruct Hn as [Hn | []]. injection Hn as <- _ _. destruct Hv as ([| [| [| i]]] & A & B); try discriminate A; discriminate B.
Qed.
Print Assumptions C76_refuted.

Example C76_ex : exists copy ren,
  (forall g, In g diet_fks -> NoDup (map fst (fk_map g)) /\ NoDup (map snd (fk_map g))) /\
  obfusimplify id_order sort_str diet_sch diet_fks0 diet_fks [] ["nutrient"] diet_dat = Ret (copy, ren) /\
  copy "quantity" = Keyed [([VStr "F2"; VStr "fat"], [VStr "lots"])] /\
  copy "food" = Keyed [([VStr "F2"], [VStr "dear"]); ([VStr "F1"], [VStr "cheap"])].
Proof.
  eexists. eexists. split.
  { apply (good_one_to_one diet_sch). now apply good_fks_ok. }
  split; [vm_compute; reflexivity |]. split; vm_compute; reflexivity.
Qed.

(** C77. Data without foreign key failures, names for all tables, and yet
    obfusimplify raises: a column that refers to two entity tables gets the
    names of one of them, and its own consistency assertion fires. *)
Theorem C77_refuted : exists n sch fks d,
  wf_schema sch /\ wf_dat sch d /\ good_fks sch fks /\ keyed_parents sch fks /\ add_implied n sch fks = Some fks /\
  (forall f, In f fks -> simple_fk sch f = true) /\
  find_foreign_key_failures sch fks d PInf = Some [] /\
  (exists pre, prepends id_order sch fks [] [] = Ret pre) /\
  (forall e, renamed_table sch fks [] e -> exists ks, sort_str (entity_keys (d e)) = Ret ks) /\
  obfusimplify id_order sort_str sch fks fks [] [] d = Raise.
Proof.
  exists 1, two_sch, two_fks, two_dat.
  split; [now apply wf_schema_ok |]. split; [now apply wf_dat_ok |]. split; [now apply good_fks_ok |].
  split; [now apply keyed_parents_ok |]. split; [vm_compute; reflexivity |].
  split; [| split; [| split; [| split]]].
  - intros f [<- | [<- | []]]; vm_compute; reflexivity.
  - vm_compute. reflexivity.
  - eexists. vm_compute. reflexivity.
  - intros e He. apply entity_In in He; [| now apply wf_schema_ok]. vm_compute in He.
    destruct He as [<- | [<- | [<- | []]]]; eexists; vm_compute; reflexivity.
  - vm_compute. reflexivity.
Qed.
Print Assumptions C77_refuted.

(** It succeeds when names are found, the keys of renamed tables can be sorted,
    and every column that refers to a renamed entity table passes the reference
    on along each of its foreign keys. *)
Theorem C77_succeeds : forall (order : list string -> list string) (sorted : list value -> outcome (list value)),
  (forall l, Permutation (order l) l) -> (forall l l', sorted l = Ret l' -> Permutation l l') ->
  forall n sch fks0 fks user skip d pre,
  wf_schema sch -> wf_dat sch d -> NoDup (map fst user) ->
  good_fks sch fks0 -> keyed_parents sch fks0 -> add_implied n sch fks0 = Some fks ->
  (forall f, In f fks0 -> simple_fk sch f = true) ->
  find_foreign_key_failures sch fks0 d PInf = Some [] ->
  prepends order sch fks user skip = Ret pre ->
  (forall e, renamed_table sch fks skip e -> exists ks, sorted (entity_keys (d e)) = Ret ks) ->
  aligned sch fks (map fst pre) ->
  exists copy ren, obfusimplify order sorted sch fks0 fks user skip d = Ret (copy, ren).
Proof. exact obfus_succeeds. Qed.
Print Assumptions C77_succeeds.

Example C77_ex : exists n,
  wf_schema diet_sch /\ wf_dat diet_sch diet_dat /\ good_fks diet_sch diet_fks0 /\ keyed_parents diet_sch diet_fks0 /\
  add_implied n diet_sch diet_fks0 = Some diet_fks /\ (forall f, In f diet_fks0 -> simple_fk diet_sch f = true) /\
  find_foreign_key_failures diet_sch diet_fks0 diet_dat PInf = Some [] /\
  prepends id_order diet_sch diet_fks [] [] = Ret [("food", txt "F"); ("nutrient", txt "N")] /\
  (forall e, renamed_table diet_sch diet_fks [] e -> exists ks, sort_str (entity_keys (diet_dat e)) = Ret ks) /\
  aligned diet_sch diet_fks ["food"; "nutrient"].
Proof.
  exists 5. split; [now apply wf_schema_ok |]. split; [now apply wf_dat_ok |]. split; [now apply good_fks_ok |].
  split; [now apply keyed_parents_ok |]. split; [vm_compute; reflexivity |].
  split; [| split; [| split; [| split]]].
  - intros f [<- | [<- | [<- | []]]]; vm_compute; reflexivity.
  - vm_compute. reflexivity.
  - vm_compute. reflexivity.
  - intros e He. apply entity_In in He; [| now apply wf_schema_ok]. vm_compute in He.
    destruct He as [<- | [<- | []]]; eexists; vm_compute; reflexivity.
  - now apply aligned_ok.
Qed.
