(** * Witnesses and examples for TicDat objects and links. *)
From Coq Require Import ZArith Bool List String Arith Lia Permutation.
From Verif Require Import PyVal PyValFacts PyDict PyDictFacts ListFacts Data FindTypes FindTypesFacts FK FKFacts
  GraphFacts FactoryFacts Obj ObjFacts ObjMore ObjLive Links LinksFacts LinkNames.
Import ListNotations.
Local Open Scope string_scope.
Local Open Scope list_scope.

(** Cells of a list-style dict row. *)
Lemma keyed_dict_cells : forall ts l kr f, fits_keyed ts (RDict l) kr -> In f (tdf ts) ->
  cell_at ts (snd kr) f = Some (dget_or String.eqb l f (VNum (of_int 0))).
Proof.
  intros ts l kr f (c & Hl & [_ Hc] & _ & Hs) Hf. rewrite Hs, Hc. unfold cell_at. rewrite map_app.
  rewrite <- (map_length (fun f => dget_or String.eqb l f (VNum (of_int 0))) (tpk ts)).
  rewrite skipn_app, skipn_all, Nat.sub_diag. cbn [app skipn]. now rewrite dget_combine_map.
Qed.

(** When every default of the table is 0, list-style dict rows get the default. *)
Theorem zero_defaults : forall sch dv inputs d t ts rows, wf_schema sch -> NoDup (map fst inputs) ->
  construct sch dv "assert" inputs = Some d -> In (t, ts) sch -> In (t, TRows rows) inputs -> tpk ts <> [] ->
  (forall f, In f (tdf ts) -> match dget2 dv t f with Some v => v = VNum (of_int 0) | None => True end) ->
  exists l, d t = OKeyed l /\
    Forall2 (fun x kr => forall c, x = RDict c -> forall f, In f (tdf ts) ->
      cell_at ts (snd kr) f =
      Some (dget_or String.eqb c f (match dget2 dv t f with Some v => v | None => VNum (of_int 0) end))) rows l.
Proof.
  intros sch dv inputs d t ts rows Hwf Hn H Hs Hin Hne Hz.
  destruct (construct_assert_rows _ _ _ _ _ _ _ Hwf Hn H Hs Hin Hne) as (l & El & Hf). exists l. split; auto.
  eapply Forall2_imp; [| exact Hf]. intros x kr _ Hx c -> f Hff. rewrite (keyed_dict_cells ts c kr f Hx Hff).
  specialize (Hz f Hff). destruct (dget2 dv t f); [now subst | reflexivity].
Qed.

(** Reads that do not insert. *)
Definition plain_read (s : ktable) (o : kop) : Prop :=
  match o with
  | KGet _ | KIn _ => True
  | KGetItem k => dget pkey_eqb (k_rows s) k <> None
  | _ => False
  end.

Theorem reads_do_not_insert : forall dv t ts s ops, Forall (plain_read s) ops -> krun dv t ts s ops = s.
Proof.
  intros dv t ts s ops. unfold krun. induction ops as [| o ops IH]; intros H; auto. inversion H as [| ? ? H1 H2]; subst.
  cbn [fold_left]. replace (fst (kstep dv t ts s o)) with s; auto. destruct o; cbn [kstep plain_read] in *; try contradiction; auto.
  destruct (dget pkey_eqb (k_rows s) p) as [r |] eqn:E; [| congruence]. now rewrite (present_key dv t ts s p r E).
Qed.

(** Writing into a row of a table without primary key. *)
Theorem write_read_list : forall dv t ts s i c f v, NoDup (tdf ts) -> ltable_ok ts s ->
  nth_error (l_rows s) i = Some (RoRow false c) ->
  (In f (tdf ts) -> exists s' c', lstep dv t ts s (LRowSet i f v) = (s', false) /\
      nth_error (l_rows s') i = Some (RoRow false c') /\
      cell_at ts c' f = Some v /\ (forall g, g <> f -> cell_at ts c' g = cell_at ts c g) /\
      (forall j, j <> i -> nth_error (l_rows s') j = nth_error (l_rows s) j)) /\
  (~ In f (tdf ts) -> lstep dv t ts s (LRowSet i f v) = (s, true)).
Proof.
  intros dv t ts s i c f v Hn Hok Hi.
  assert (List.length c = List.length (tdf ts)) as Hl.
  { apply nth_error_In in Hi. apply Hok in Hi. simpl in Hi. tauto. }
  split; intros Hf.
  - exists (mkL (l_frozen s) (set_at i (RoRow false (set_nth_cell (tdf ts) c f v)) (l_rows s))), (set_nth_cell (tdf ts) c f v).
    split.
    { cbn [lstep]. unfold l_on_row. rewrite Hi. cbn [row_set]. rewrite (mem_str_true f) by auto. reflexivity. }
    cbn [l_rows]. split; [| split; [| split]].
    + clear - Hi. revert i Hi. induction (l_rows s) as [| a l IH]; intros [| i] Hi; simpl in *; try discriminate; auto.
    + unfold cell_at. rewrite set_nth_get by auto. now rewrite String.eqb_refl.
    + intros g Hg. unfold cell_at. destruct (in_dec string_dec g (tdf ts)) as [Hin | Hin].
      * rewrite set_nth_get by auto. destruct (String.eqb f g) eqn:E; auto. apply String.eqb_eq in E. congruence.
      * assert (forall r : row, dget String.eqb (combine (tdf ts) r) g = None) as Hnone.
        { intros r. apply (dget_None String.eqb). intros f' v' Hc. apply in_combine_l in Hc.
          apply String.eqb_neq. congruence. }
        now rewrite !Hnone.
    + intros j Hj. clear - Hj. revert i j Hj. induction (l_rows s) as [| a l IH]; intros [| i] [| j] Hj; simpl; auto; try lia.
  - cbn [lstep]. unfold l_on_row. rewrite Hi. cbn [row_set]. replace (mem_str f (tdf ts)) with false; auto.
    symmetry. now apply mem_str_false.
Qed.

(** The link dictionaries are never frozen. *)
Theorem freeze_skips_links : forall d d', freeze d = Some d' -> dget String.eqb (o_attrs d) "_allDataDicts" = None ->
  o_links d' = o_links d.
Proof.
  intros d d' H Ha. unfold freeze in H. destruct (map_opt _ (o_tables d)); [| discriminate]. injection H as <-.
  cbn [o_links]. unfold freeze_links, dget_or. now rewrite Ha.
Qed.

(** ** Concrete objects *)

Definition n (z : Z) : value := VNum (of_int z).
Definition ox_sch : schema := [("f", mkT ["k"] ["a"; "b"]); ("l", mkT [] ["x"]); ("e", mkT ["p"; "q"] [])].
Definition ox_dv : defaults := [("f", [("a", n 5)])].
Definition ox_in : list (string * tablein) :=
  [("f", TDict [(KAtom (VStr "u"), RDict [("b", n 2)]); (KAtom (VStr "v"), RSeq [n 3; n 4])]);
   ("l", TRows [RAtom (n 1); RDict []])].
Definition ox_rows : list (string * tablein) := [("f", TRows [RDict [("k", VStr "u")]; RSeq [VStr "v"; n 3; n 4]])].

Lemma ox_wf : wf_schema ox_sch.
Proof.
  split.
  - repeat constructor; simpl; intuition discriminate.
  - intros t ts H. simpl in H. destruct H as [E | [E | [E | []]]]; injection E as <- <-; simpl;
      repeat constructor; simpl; intuition discriminate.
Qed.

Lemma ox_names : NoDup (map fst ox_in) /\ NoDup (map fst ox_rows).
Proof. split; repeat constructor; simpl; intuition discriminate. Qed.

Lemma ox_built : exists d, construct ox_sch ox_dv "assert" ox_in = Some d /\
  d "f" = OKeyed [(KAtom (VStr "u"), [n 5; n 2]); (KAtom (VStr "v"), [n 3; n 4])] /\
  d "l" = OListed [[n 1]; [n 0]] /\ d "e" = OKeyed [].
Proof. eexists. split; [reflexivity |]. repeat split; vm_compute; reflexivity. Qed.

(** C26 *)
Lemma w_list_of_dicts : exists d, construct ox_sch ox_dv "assert" ox_rows = Some d /\
  dget2 ox_dv "f" "a" = Some (n 5) /\
  d "f" = OKeyed [(KAtom (VStr "u"), [n 0; n 0]); (KAtom (VStr "v"), [n 3; n 4])] /\ n 0 <> n 5.
Proof.
  eexists. split; [reflexivity |]. split; [reflexivity |]. split; [vm_compute; reflexivity |]. vm_compute. discriminate.
Qed.

(** C27 *)
Lemma w_dup : construct ox_sch ox_dv "assert" [("f", TRows [RSeq [n 1; n 0; n 0]; RSeq [VBool true; n 3; n 4]])] = None.
Proof. vm_compute. reflexivity. Qed.

(** A live object. *)
Definition ox_live : live_obj :=
  mkO [("f", LK (mkK false [(KAtom (VStr "u"), RoRow false [n 5; n 2])]));
       ("l", LL (mkL false [RoRow false [n 1]]));
       ("e", LK (mkK false [(KTup [n 1; n 2], RoFree false [])]))] false [("_all_data_dicts", [0])] [mkLink false []].

Lemma ox_live_ok : live_ok ox_sch ox_live.
Proof.
  split; [| split].
  - repeat constructor; simpl; intuition discriminate.
  - intros t ts H. simpl in *. destruct H as [E | [E | [E | []]]]; injection E as <- <-; auto.
  - intros t x H. simpl in H. destruct H as [E | [E | [E | []]]]; injection E as <- <-.
    + split; [discriminate |]. split; [repeat constructor; simpl; tauto |]. intros k r H. simpl in H.
      destruct H as [E | []]. injection E as <- <-. split; [reflexivity |]. split; [discriminate | reflexivity].
    + split; [reflexivity |]. intros r H. simpl in H. destruct H as [<- | []]. split; [discriminate | reflexivity].
    + split; [discriminate |]. split; [repeat constructor; simpl; tauto |]. intros k r H. simpl in H.
      destruct H as [E | []]. injection E as <- <-. split; [reflexivity | split; reflexivity].
Qed.

(** C28: calls that freezing does not guard. *)
Definition leaks : list oop :=
  [OnK "f" (KSetDefault (KAtom (n 9)) []); OnK "f" KPopItem; OnK "f" KClear; OnK "f" (KIor [(KAtom (n 9), [])]);
   OnK "e" (KRowSetDefault (KTup [n 1; n 2]) "z" (n 1))].

Lemma w_freeze : exists d', live_ok ox_sch ox_live /\ freeze ox_live = Some d' /\
  Forall (fun o => obj_data (orun ox_sch ox_dv d' [o]) <> obj_data ox_live) leaks.
Proof.
  eexists. split; [exact ox_live_ok |]. split; [reflexivity |].
  repeat constructor; vm_compute; discriminate.
Qed.

(** C29 *)
Lemma w_links : exists d', freeze ox_live = Some d' /\
  o_links (orun ox_sch ox_dv d' [LinkSet 0 (KAtom (n 1))]) <> o_links ox_live.
Proof. eexists. split; [reflexivity |]. vm_compute. discriminate. Qed.

(** C31 *)
Definition listed2 (a b : value) : obj := fun t => if String.eqb t "l" then OListed [[a]; [b]] else OKeyed [].
Lemma listed2_ok : forall a b, obj_ok ox_sch (listed2 a b).
Proof.
  intros a b t ts H. simpl in H. destruct H as [E | [E | [E | []]]]; injection E as <- <-; cbn.
  - intros k r [].
  - intros r [<- | [<- | []]]; reflexivity.
  - intros k r [].
Qed.
Lemma w_asym : obj_ok ox_sch (listed2 (n 1) (n 1)) /\ obj_ok ox_sch (listed2 (n 1) (n 2)) /\
  same_data ox_sch (listed2 (n 1) (n 1)) (listed2 (n 1) (n 2)) = true /\
  same_data ox_sch (listed2 (n 1) (n 2)) (listed2 (n 1) (n 1)) = false.
Proof. split; [apply listed2_ok |]. split; [apply listed2_ok |]. split; vm_compute; reflexivity. Qed.
Lemma w_irrefl : obj_ok ox_sch (listed2 VNaN (n 2)) /\
  same_data ox_sch (listed2 VNaN (n 2)) (listed2 VNaN (n 2)) = false.
Proof. split; [apply listed2_ok |]. vm_compute. reflexivity. Qed.
Lemma listed2_distinct : obj_distinct ox_sch (listed2 (n 1) (n 2)).
Proof.
  intros t ts H. simpl in H. destruct H as [E | [E | [E | []]]]; injection E as <- <-.
  - constructor.
  - change (distinct_rows [[n 1]; [n 2]]). unfold distinct_rows. constructor; [| repeat constructor; simpl; tauto].
    simpl. intros [E | []]. revert E. vm_compute. discriminate.
  - constructor.
Qed.

(** C32 *)
Lemma w_dataless : exists r', ktable_ok (mkT ["p"; "q"] []) (mkK false [(KTup [n 1; n 2], RoFree false [])]) /\
  kstep [] "e" (mkT ["p"; "q"] []) (mkK false [(KTup [n 1; n 2], RoFree false [])]) (KRowSet (KTup [n 1; n 2]) "z" (n 7)) =
    (mkK false [(KTup [n 1; n 2], r')], false) /\ row_data r' = inr [("z", n 7)].
Proof.
  exists (RoFree false [("z", n 7)]). split; [| split; vm_compute; reflexivity].
  split; [repeat constructor; simpl; tauto |]. intros k r H. simpl in H.
  destruct H as [E | []]. injection E as <- <-. split; [reflexivity | split; reflexivity].
Qed.

(** ** Links *)

Definition lx_nts := mkT ["food"; "cat"] ["qty"].
Definition lx_fts := mkT ["name"] ["cost"].
Definition lx_m := [("food", "name")].
Definition lx_native : list (pkey * row) :=
  [(KTup [VStr "egg"; VStr "fat"], [n 1]); (KTup [VStr "egg"; VStr "iron"], [n 2]); (KTup [VStr "zzz"; VStr "fat"], [n 3])].
Definition lx_foreign : list (pkey * row) := [(KAtom (VStr "egg"), [n 7]); (KAtom (VStr "ham"), [n 8])].

Lemma lx_hyps : NoDup (tpk lx_nts ++ tdf lx_nts) /\ NoDup (tpk lx_fts) /\ onto_key lx_nts lx_fts lx_m /\
  keyed_ok lx_nts lx_native /\ keyed_ok lx_fts lx_foreign.
Proof.
  split; [repeat constructor; simpl; intuition discriminate |].
  split; [repeat constructor; simpl; tauto |].
  split; [split; [repeat constructor; simpl; tauto | split; [repeat constructor; simpl; tauto | split]] |].
  - intros nf ff [E | []]. injection E as <- <-. simpl. auto.
  - intros x. simpl. tauto.
  - split; split.
    + repeat constructor; simpl; intuition discriminate.
    + intros k r H. simpl in H. destruct H as [E | [E | [E | []]]]; injection E as <- <-; split; reflexivity.
    + repeat constructor; simpl; intuition discriminate.
    + intros k r H. simpl in H. destruct H as [E | [E | []]]; injection E as <- <-; split; reflexivity.
Qed.

Lemma lx_links : make_links lx_nts lx_fts lx_m lx_native lx_foreign =
  Some [(KAtom (VStr "egg"), [(KAtom (VStr "fat"), [n 1]); (KAtom (VStr "iron"), [n 2])]); (KAtom (VStr "ham"), [])].
Proof. vm_compute. reflexivity. Qed.

(** Two native fields mapped to one foreign field: the constructor raises. *)
Lemma w_shared_link : exists native foreign,
  let nts := mkT ["a"; "b"; "c"] [] in let fts := mkT ["x"] [] in let m := [("a", "x"); ("b", "x")] in
  set_eqb (tpk fts) (map snd m) = true /\ keyed_ok nts native /\ keyed_ok fts foreign /\
  (exists p, In p (tpk nts) /\ ~ In p (map fst m)) /\ make_links nts fts m native foreign = None.
Proof.
  exists [(KTup [n 1; n 1; n 2], [])], [(KAtom (n 1), [])]. cbv zeta.
  split; [reflexivity |]. split; [| split; [| split]].
  - split; [repeat constructor; simpl; tauto |]. intros k r H. simpl in H. destruct H as [E | []]. injection E as <- <-.
    split; reflexivity.
  - split; [repeat constructor; simpl; tauto |]. intros k r H. simpl in H. destruct H as [E | []]. injection E as <- <-.
    split; reflexivity.
  - exists "c". split; [simpl; auto |]. simpl. intuition discriminate.
  - vm_compute. reflexivity.
Qed.

(** ** Link names *)

Definition nx_sch : schema := [("t", mkT ["i"] ["a"; "b"; "a_b"; "c"]); ("u", mkT ["x"; "y"] []); ("w", mkT ["z"] [])].
Definition nx_ab := mkFk "t" "u" [("a", "x"); ("b", "y")].
Definition nx_ba := mkFk "t" "u" [("a", "y"); ("b", "x")].
Definition nx_c := mkFk "t" "u" [("c", "x"); ("i", "y")].

Lemma w_same_fields : nx_ab <> nx_ba /\ simple_fk nx_sch nx_ab = true /\ simple_fk nx_sch nx_ba = true /\
  forall order, link_name order nx_sch [nx_ab; nx_ba] "t" "u" (map fst (fk_map nx_ab)) =
                link_name order nx_sch [nx_ab; nx_ba] "t" "u" (map fst (fk_map nx_ba)).
Proof. split; [discriminate |]. repeat split; reflexivity. Qed.

(** Fields "a", "b_c" against "a_b", "c". *)
Definition ux_sch : schema := [("t", mkT ["i"] ["a"; "b_c"; "a_b"; "c"]); ("u", mkT ["x"; "y"] [])].
Definition ux_1 := mkFk "t" "u" [("a", "x"); ("b_c", "y")].
Definition ux_2 := mkFk "t" "u" [("a_b", "x"); ("c", "y")].

Lemma w_underscore : ~ same_set (map fst (fk_map ux_1)) (map fst (fk_map ux_2)) /\
  simple_fk ux_sch ux_1 = true /\ simple_fk ux_sch ux_2 = true /\
  link_name (fun l => l) ux_sch [ux_1; ux_2] "t" "u" (map fst (fk_map ux_1)) =
  link_name (fun l => l) ux_sch [ux_1; ux_2] "t" "u" (map fst (fk_map ux_2)).
Proof.
  split; [| repeat split; reflexivity]. intros H. specialize (H "a"). simpl in H. destruct H as [H _].
  destruct (H (or_introl eq_refl)) as [E | [E | []]]; discriminate.
Qed.

Lemma nx_hyps : simple_fk nx_sch nx_ab = true /\ simple_fk nx_sch nx_c = true /\
  Forall no_underscore (map fst (fk_map nx_ab)) /\ Forall no_underscore (map fst (fk_map nx_c)) /\
  no_underscore "t" /\ ~ same_set (map fst (fk_map nx_ab)) (map fst (fk_map nx_c)).
Proof.
  repeat split; try (repeat constructor).
  intros H. specialize (H "a"). simpl in H. destruct H as [H _].
  destruct (H (or_introl eq_refl)) as [E | [E | []]]; discriminate.
Qed.
