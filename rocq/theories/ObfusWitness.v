(** * obfusimplify: running out of names, decidable checks and examples. *)
From Coq Require Import ZArith Bool List String Ascii Arith Lia Permutation.
From Verif Require Import PyVal PyValFacts PyDict PyDictFacts ListFacts PyStr Data FindTypes FindTypesFacts
  FK FKFacts RemoveFacts ImpliedFacts WfCheck InfIO Ampl Obfus ObfusNames ObfusFacts ObfusCopy ObfusMore.
Import ListNotations.

(** ** Enough names *)

Lemma set_of_nodup : forall l, NoDup l -> List.length (set_of text_eqb l) = List.length l.
Proof.
  intros l. induction l as [| x l IH] using rev_ind; intros H; auto.
  unfold set_of. rewrite fold_left_app. simpl. fold (set_of text_eqb l). rewrite app_length. simpl.
  unfold sadd. rewrite smem_set_of by eauto using text_eqb_trans.
  destruct (existsb (fun y => text_eqb y x) l) eqn:E.
  - exfalso. apply used_In in E. apply (NoDup_app_disj _ _ x H E). now left.
  - rewrite app_length, IH; auto. now apply NoDup_app_l in H.
Qed.

Theorem prepends_total : forall (order : list string -> list string) sch fks user skip,
  (forall l, Permutation (order l) l) -> wf_schema sch -> NoDup (map fst user) ->
  (forall t, In t skip -> renamed_table sch fks [] t) ->
  (forall t p, In (t, p) user -> renamed_table sch fks skip t /\ good_prepend p = true) ->
  NoDup (map snd user) ->
  (forall l t, NoDup l -> (forall e, In e l -> renamed_table sch fks skip e) -> renamed_table sch fks skip t ->
     List.length l <= List.length (from_table t) + 25) ->
  exists pre, prepends order sch fks user skip = Ret pre.
Proof.
  intros order sch fks user skip Ho Hs Hu Hsk Hus Hnd Hn. unfold prepends.
  set (ents' := filter (fun t => negb (mem_str t skip)) (entity_tables sch fks)).
  assert (forall e, In e ents' <-> renamed_table sch fks skip e) as Hin.
  { intros e. unfold ents'. rewrite filter_In, (entity_In sch fks e Hs).
    rewrite negb_true_iff, <- not_true_iff_false, ObfusFacts.mem_str_In. unfold renamed_table. simpl. tauto. }
  assert (NoDup ents') as Hnd'.
  { apply NoDup_filter. unfold entity_tables. apply filter_NoDup_map. apply Hs. }
  destruct (existsb (fun kv => mem_str (fst kv) skip) user) eqn:E1.
  { exfalso. apply existsb_exists in E1 as ([t p] & H1 & H2). apply Hus in H1 as [(H1 & _) _]. apply ObfusFacts.mem_str_In in H2. auto. }
  assert (forallb (fun t => mem_str t (entity_tables sch fks)) skip = true) as ->.
  { apply forallb_forall. intros t Ht. apply ObfusFacts.mem_str_In, entity_In; auto. }
  assert (forallb (fun kv => mem_str (fst kv) ents' && good_prepend (snd kv)) user = true) as ->.
  { apply forallb_forall. intros [t p] Ht. simpl. apply Hus in Ht as [H1 ->]. rewrite andb_true_r.
    now apply ObfusFacts.mem_str_In, Hin. }
  rewrite set_of_nodup, map_length, Nat.eqb_refl by auto. cbn [negb].
  set (rest := filter (fun t => negb (mem_str t (map fst user))) ents').
  assert (NoDup (map fst user ++ order rest)) as Hall.
  { apply NoDup_app_intro; auto.
    - apply (Permutation_NoDup (Permutation_sym (Ho rest))). now apply NoDup_filter.
    - intros x Hx Hr. apply (Permutation_in _ (Ho rest)) in Hr. unfold rest in Hr. apply filter_In in Hr as [_ Hr].
      apply negb_true_iff in Hr. rewrite (proj2 (ObfusFacts.mem_str_In _ _) Hx) in Hr. discriminate. }
  apply assign_total; auto. intros t Ht. rewrite <- (map_length fst user), <- app_length. apply Hn; auto.
  - intros e He. apply in_app_or in He as [He | He].
    + apply in_map_iff in He as ([t' p] & <- & He). now apply Hus in He.
    + apply (Permutation_in _ (Ho rest)) in He. apply filter_In in He as [He _]. now apply Hin.
  - apply (Permutation_in _ (Ho rest)) in Ht. apply filter_In in Ht as [Ht _]. now apply Hin.
Qed.

(** Tables whose names have no usable letters draw on 25 names. *)
Lemma too_many_letterless : forall ts,
  (forall t, In t ts -> from_table t = []) -> NoDup ts -> 25 < List.length ts -> assign ts [] = Raise.
Proof.
  intros ts Hf Hn Hl. destruct (assign ts []) as [pre |] eqn:E; auto. exfalso.
  enough (forall (ts : list string) (pre0 pre : list (string * text)), (forall t, In t ts -> from_table t = []) ->
    NoDup (map fst pre0 ++ ts) -> NoDup (map snd pre0) -> incl (map snd pre0) (map (fun c => [c]) chars) ->
    assign ts pre0 = Ret pre -> List.length pre0 + List.length ts <= 25) as H.
  { specialize (H ts [] pre Hf). simpl in H. specialize (H Hn (NoDup_nil _) (incl_nil_l _) E). lia. }
  clear. induction ts as [| t ts IH]; intros pre0 pre Hf Hn Hs Hi E.
  - simpl. rewrite Nat.add_0_r, <- (map_length snd). apply (NoDup_incl_length Hs) in Hi. exact Hi.
  - cbn [assign] in E. destruct (name_for (map snd pre0) t) as [n |] eqn:En; [| discriminate E].
    assert (~ In n (map snd pre0) /\ In n (map (fun c => [c]) chars)) as [H1 H2].
    { unfold name_for in En. rewrite (Hf t) in En by now left. cbv zeta in En.
      enough (forall ns, pick (map snd pre0) [] ns = Ret n -> (forall x, In x ns -> 1 <= x) ->
        ~ In n (map snd pre0) /\ In n (map (fun c => [c]) chars)) as Hp.
      { apply (Hp _ En). intros x Hx. apply in_seq in Hx. lia. }
      clear. induction ns as [| x ns IH]; cbn [pick]; intros E Hx; [discriminate |].
      assert (1 <= x) as H1 by (apply Hx; now left). unfold candidate in E. change (List.length (@nil ascii)) with 0 in E.
      destruct (Nat.leb_spec x 0); [lia |]. unfold base_converter in E.
      destruct (Nat.ltb_spec (x - 0 - 1) (List.length chars)) as [Hlt | _]; [| discriminate E].
      cbn [app map] in E. destruct (existsb _ _) eqn:Eu; [apply IH; auto; intros y Hy; apply Hx; now right |]. injection E as <-. split.
      - intros Hu. apply used_In in Hu. exact (eq_true_false_abs _ Hu Eu).
      - exact (in_map (fun c => [c]) chars _ (nth_In chars "A"%char Hlt)). }
    assert (dset String.eqb pre0 t n = pre0 ++ [(t, n)]) as Ed.
    { apply dset_absent. apply (dget_None String.eqb). intros k v Hk. apply (in_map fst) in Hk. simpl in Hk.
      apply String.eqb_neq. intros ->. apply (NoDup_app_disj _ _ t Hn Hk). now left. }
    rewrite Ed in E. apply IH in E.
    + rewrite app_length in E. simpl in *. lia.
    + intros u Hu. apply Hf. now right.
    + rewrite map_app. simpl. rewrite <- app_assoc. exact Hn.
    + rewrite map_app. simpl. apply NoDup_app_intro; auto; [constructor; [tauto | constructor] |].
      intros y Hy [<- | []]. auto.
    + rewrite map_app. intros y Hy. apply in_app_or in Hy as [Hy | [<- | []]]; auto.
Qed.

(** ** Decidable checks *)

Definition refers_b (sch : schema) (fks : list fk) (ents : list string) (t f e : string) : bool :=
  mem_str e ents &&
  (existsb (fun g => String.eqb (fk_native g) t && String.eqb (fk_foreign g) e && mem_str f (map fst (fk_map g))) fks ||
   String.eqb t e && existsb (fun tts => String.eqb (fst tts) t && list_eqb String.eqb (tpk (snd tts)) [f]) sch).

Lemma refers_b_iff : forall sch fks ents t f e, refers_b sch fks ents t f e = true <-> refers sch fks ents t f e.
Proof.
  intros sch fks ents t f e. unfold refers_b, refers. rewrite andb_true_iff, orb_true_iff, andb_true_iff, ObfusFacts.mem_str_In, !existsb_exists, String.eqb_eq.
  split; intros [H1 H2]; split; auto; destruct H2 as [H2 | H2].
  - destruct H2 as (g & G1 & G2). apply andb_prop in G2 as [G2 G4]. apply andb_prop in G2 as [G2 G3].
    apply String.eqb_eq in G2, G3. apply ObfusFacts.mem_str_In, in_map_iff in G4 as ([a b] & <- & G4). left. exists g, b. auto.
  - destruct H2 as (H0 & [t' ts] & H3 & H4). simpl in H4. apply andb_prop in H4 as [H4 H5]. apply String.eqb_eq in H4. subst.
    right. split; auto. exists ts. split; auto. now apply single_pk.
  - destruct H2 as (g & ff & G1 & <- & <- & G4). left. exists g. split; auto. rewrite !String.eqb_refl. simpl.
    apply ObfusFacts.mem_str_In. apply (in_map fst) in G4. exact G4.
  - destruct H2 as (-> & ts & H3 & H4). right. split; auto. exists (e, ts). split; auto. simpl. rewrite String.eqb_refl. now apply single_pk.
Qed.

Definition aligned_b (sch : schema) (fks : list fk) (ents : list string) : bool :=
  forallb (fun g => forallb (fun nf => forallb (fun e =>
    negb (refers_b sch fks ents (fk_native g) (fst nf) e) || refers_b sch fks ents (fk_foreign g) (snd nf) e) ents) (fk_map g)) fks.

Lemma aligned_ok : forall sch fks ents, aligned_b sch fks ents = true -> aligned sch fks ents.
Proof.
  intros sch fks ents H g nf ff e Hg Hm Hr. unfold aligned_b in H. rewrite forallb_forall in H.
  specialize (H g Hg). rewrite forallb_forall in H. specialize (H (nf, ff) Hm). rewrite forallb_forall in H.
  specialize (H e (proj1 Hr)). simpl in H. apply refers_b_iff in Hr. rewrite Hr in H. simpl in H. now apply refers_b_iff.
Qed.

(** ** Witnesses *)

Local Open Scope string_scope.
Local Open Scope list_scope.

(** 26 tables whose names have no usable letters. *)
Definition i_tables : list string :=
  ["i1"; "i2"; "i3"; "i4"; "i5"; "i6"; "i7"; "i8"; "i9"; "i10"; "i11"; "i12"; "i13"; "i14"; "i15"; "i16"; "i17";
   "i18"; "i19"; "i20"; "i21"; "i22"; "i23"; "i24"; "i25"; "i26"].
Definition i_sch : schema := map (fun t => (t, mkT ["k"] [])) i_tables.

(** One column referring to two entity tables. *)
Definition two_sch : schema := [("a", mkT ["x"] []); ("b", mkT ["y"] []); ("child", mkT ["k"] ["f"])].
Definition two_fks : list fk := [mkFk "child" "a" [("f", "x")]; mkFk "child" "b" [("f", "y")]].
Definition two_dat : dat := fun t =>
  if String.eqb t "child" then Keyed [([VStr "c"], [VStr "v"])] else Keyed [([VStr "v"], [])].

(** Both columns of a child refer to the same column of its parent. *)
Definition twin_sch : schema := [("parent", mkT ["x"] []); ("child", mkT [] ["a"; "b"])].
Definition twin_fks : list fk := [mkFk "child" "parent" [("a", "x"); ("b", "x")]].
Definition twin_dat : dat := fun t =>
  if String.eqb t "child" then Listed [[VStr "egg"; VStr "egg"]] else Keyed [([VStr "egg"], [])].

(** Foods, nutrients and their quantities; menus refer to quantities. *)
Definition diet_sch : schema :=
  [("food", mkT ["name"] ["cost"]); ("nutrient", mkT ["name"] []);
   ("quantity", mkT ["food"; "nutrient"] ["amount"]); ("menu", mkT [] ["day"; "f"; "n"])].
Definition diet_fks0 : list fk :=
  [mkFk "quantity" "food" [("food", "name")]; mkFk "quantity" "nutrient" [("nutrient", "name")];
   mkFk "menu" "quantity" [("f", "food"); ("n", "nutrient")]].
Definition diet_fks : list fk :=
  diet_fks0 ++ [mkFk "menu" "food" [("f", "name")]; mkFk "menu" "nutrient" [("n", "name")]].
Definition diet_dat : dat := fun t =>
  if String.eqb t "food" then Keyed [([VStr "pie"], [VStr "dear"]); ([VStr "egg"], [VStr "cheap"])]
  else if String.eqb t "nutrient" then Keyed [([VStr "fat"], [])]
  else if String.eqb t "quantity" then Keyed [([VStr "pie"; VStr "fat"], [VStr "lots"])]
  else Listed [[VStr "monday"; VStr "pie"; VStr "fat"]].

(** [sorted] on strings: insertion sort, raising on anything else. *)
Fixpoint insert_str (v : value) (l : list value) : list value :=
  match l with
  | [] => [v]
  | w :: l' => match v, w with
               | VStr a, VStr b => match String.compare a b with Gt => w :: insert_str v l' | _ => v :: l end
               | _, _ => v :: l
               end
  end.
Definition sort_str (l : list value) : outcome (list value) :=
  if forallb stringish l then Ret (fold_right insert_str [] l) else Raise.

Lemma insert_perm : forall v l, Permutation (v :: l) (insert_str v l).
Proof.
  intros v l. induction l as [| w l IH]; simpl; auto. destruct v; auto. destruct w; auto.
  destruct (String.compare s s0); auto. rewrite perm_swap. now constructor.
Qed.

Lemma sort_str_perm : forall l l', sort_str l = Ret l' -> Permutation l l'.
Proof.
  intros l l' H. unfold sort_str in H. destruct (forallb stringish l); [| discriminate]. injection H as <-.
  induction l as [| v l IH]; simpl; auto. rewrite <- insert_perm. now constructor.
Qed.
