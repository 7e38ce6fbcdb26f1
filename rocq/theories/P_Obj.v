(** * Property theorems: C25 - C33, C65, C66 (TicDat objects and links). *)
From Coq Require Import ZArith Bool List String Arith Permutation.
From Verif Require Import PyVal PyDict Data FindTypes FK Obj ObjFacts ObjMore ObjLive Links LinksFacts LinkNames
  ObjWitness.
Import ListNotations.
Local Open Scope string_scope.
Local Open Scope list_scope.

(** C25: construction. *)
Theorem C25_rows_stored : forall sch dv mode inputs d, wf_schema sch -> NoDup (map fst inputs) ->
  construct sch dv mode inputs = Some d ->
  (forall t ts inp, In (t, ts) sch -> In (t, inp) inputs -> holds dv t ts inp (d t)) /\
  (forall t ts, In (t, ts) sch -> ~ In t (map fst inputs) ->
     d t = match tpk ts with [] => OListed [] | _ => OKeyed [] end).
Proof. exact construct_holds. Qed.
Print Assumptions C25_rows_stored.

Theorem C25_ill_shaped_rejected : forall sch dv mode inputs, wf_schema sch -> mode <> "assert" ->
  (exists d, construct sch dv mode inputs = Some d) <-> acceptable sch inputs.
Proof. exact construct_accepts. Qed.
Print Assumptions C25_ill_shaped_rejected.

Theorem C25_row_fields : forall sch dv mode inputs d, wf_schema sch -> NoDup (map fst inputs) ->
  construct sch dv mode inputs = Some d -> obj_ok sch d.
Proof. exact construct_ok. Qed.
Print Assumptions C25_row_fields.

Example C25_ex : wf_schema ox_sch /\ NoDup (map fst ox_in) /\
  exists d, construct ox_sch ox_dv "assert" ox_in = Some d /\
    d "f" = OKeyed [(KAtom (VStr "u"), [n 5; n 2]); (KAtom (VStr "v"), [n 3; n 4])] /\
    d "l" = OListed [[n 1]; [n 0]] /\ d "e" = OKeyed [].
Proof. exact (conj ox_wf (conj (proj1 ox_names) ox_built)). Qed.

(** C26: dict rows in a list get 0, not the declared default. *)
Theorem C26_list_of_dicts_refuted : exists sch dv inputs d r,
  wf_schema sch /\ inputs = [("f", TRows [RDict [("k", VStr "u")]; r])] /\
  construct sch dv "assert" inputs = Some d /\ dget2 dv "f" "a" = Some (n 5) /\
  (exists l, d "f" = OKeyed ((KAtom (VStr "u"), [n 0; n 0]) :: l)) /\ n 0 <> n 5.
Proof.
  destruct w_list_of_dicts as (d & A & B & C & D).
  exists ox_sch, ox_dv, ox_rows, d, (RSeq [VStr "v"; n 3; n 4]). eauto 10 using ox_wf.
Qed.
Print Assumptions C26_list_of_dicts_refuted.

Theorem C26_zero_defaults : forall sch dv inputs d t ts rows, wf_schema sch -> NoDup (map fst inputs) ->
  construct sch dv "assert" inputs = Some d -> In (t, ts) sch -> In (t, TRows rows) inputs -> tpk ts <> [] ->
  (forall f, In f (tdf ts) -> match dget2 dv t f with Some v => v = VNum (of_int 0) | None => True end) ->
  exists l, d t = OKeyed l /\
    Forall2 (fun x kr => forall c, x = RDict c -> forall f, In f (tdf ts) ->
      cell_at ts (snd kr) f =
      Some (dget_or String.eqb c f (match dget2 dv t f with Some v => v | None => VNum (of_int 0) end))) rows l.
Proof. exact zero_defaults. Qed.
Print Assumptions C26_zero_defaults.

Example C26_ex : exists d, construct ox_sch [] "assert" ox_rows = Some d /\
  d "f" = OKeyed [(KAtom (VStr "u"), [n 0; n 0]); (KAtom (VStr "v"), [n 3; n 4])].
Proof. eexists. split; [reflexivity | vm_compute; reflexivity]. Qed.

(** C27: duplicates. *)
Theorem C27_duplicates_raise : forall sch dv inputs, wf_schema sch -> NoDup (map fst inputs) ->
  (exists d, construct sch dv "assert" inputs = Some d) <-> acceptable sch inputs /\ no_lost_rows sch inputs.
Proof. exact construct_assert. Qed.
Print Assumptions C27_duplicates_raise.

Theorem C27_rows_kept : forall sch dv inputs d t ts rows, wf_schema sch -> NoDup (map fst inputs) ->
  construct sch dv "assert" inputs = Some d -> In (t, ts) sch -> In (t, TRows rows) inputs -> tpk ts <> [] ->
  exists l, d t = OKeyed l /\ Forall2 (fits_keyed ts) rows l.
Proof. exact construct_assert_rows. Qed.
Print Assumptions C27_rows_kept.

(** The keys 1 and True are equal. *)
Example C27_ex : construct ox_sch ox_dv "assert" [("f", TRows [RSeq [n 1; n 0; n 0]; RSeq [VBool true; n 3; n 4]])] = None /\
  exists d, construct ox_sch ox_dv "assert" ox_rows = Some d /\
    d "f" = OKeyed [(KAtom (VStr "u"), [n 0; n 0]); (KAtom (VStr "v"), [n 3; n 4])].
Proof.
  destruct w_list_of_dicts as (d & A & _ & B & _). split; [exact w_dup | exists d; exact (conj A B)].
Qed.

(** C28: freezing. *)
Theorem C28_frozen_data : forall sch dv d d' ops, freeze d = Some d' -> Forall guarded ops ->
  obj_data (orun sch dv d' ops) = obj_data d.
Proof. exact frozen_stays. Qed.
Print Assumptions C28_frozen_data.

Theorem C28_can_freeze : forall sch d, live_ok sch d -> exists d', freeze d = Some d'.
Proof. exact freeze_some. Qed.
Print Assumptions C28_can_freeze.

Theorem C28_freeze_refuted : exists sch dv d d' leak, live_ok sch d /\ freeze d = Some d' /\
  leak = [OnK "f" (KSetDefault (KAtom (n 9)) []); OnK "f" KPopItem; OnK "f" KClear; OnK "f" (KIor [(KAtom (n 9), [])]);
          OnK "e" (KRowSetDefault (KTup [n 1; n 2]) "z" (n 1))] /\
  Forall (fun o => obj_data (orun sch dv d' [o]) <> obj_data d) leak.
Proof.
  destruct w_freeze as (d' & A & B & C). exists ox_sch, ox_dv, ox_live, d', leaks. auto.
Qed.
Print Assumptions C28_freeze_refuted.

Example C28_ex : live_ok ox_sch ox_live /\ exists d', freeze ox_live = Some d' /\
  Forall guarded [OnK "f" (KSetItem (KAtom (n 9)) (RDict [])); OnL "l" (LDelItem 0); OnK "f" (KRowSet (KAtom (VStr "u")) "a" (n 0))] /\
  orun ox_sch ox_dv ox_live [OnL "l" (LDelItem 0)] <> ox_live.
Proof.
  split; [exact ox_live_ok |]. eexists. split; [reflexivity |]. split; [repeat constructor | vm_compute; discriminate].
Qed.

(** C29: link dictionaries stay editable. *)
Theorem C29_links_frozen_refuted : exists sch dv d d' i k, freeze d = Some d' /\
  o_links (orun sch dv d' [LinkSet i k]) <> o_links d.
Proof.
  destruct w_links as (d' & A & B). exists ox_sch, ox_dv, ox_live, d', 0, (KAtom (n 1)). auto.
Qed.
Print Assumptions C29_links_frozen_refuted.

Theorem C29_freeze_skips_links : forall d d', freeze d = Some d' ->
  dget String.eqb (o_attrs d) "_allDataDicts" = None -> o_links d' = o_links d.
Proof. exact freeze_skips_links. Qed.
Print Assumptions C29_freeze_skips_links.

Example C29_ex : (exists d', freeze ox_live = Some d') /\ dget String.eqb (o_attrs ox_live) "_allDataDicts" = None /\
  o_links ox_live <> [].
Proof. split; [eexists; reflexivity |]. split; [reflexivity | discriminate]. Qed.

(** C30: copies. *)
Theorem C30_round_trip : forall sch dv mode d, wf_schema sch -> obj_ok sch d ->
  exists e, construct sch dv mode (as_dict sch d) = Some e /\ forall t ts, In (t, ts) sch -> e t = d t.
Proof. exact as_dict_round_trip. Qed.
Print Assumptions C30_round_trip.

Theorem C30_copy_after_history : forall sch dv mode inputs d ops, wf_schema sch -> NoDup (map fst inputs) ->
  dict_keys_ok inputs -> construct sch dv mode inputs = Some d -> Forall (checked sch) ops ->
  let now := snap (orun sch dv (live_of sch d) ops) in
  exists e, construct sch dv mode (as_dict sch now) = Some e /\ forall t ts, In (t, ts) sch -> e t = now t.
Proof. exact copy_after_history. Qed.
Print Assumptions C30_copy_after_history.

Example C30_ex : dict_keys_ok ox_in /\ exists d, construct ox_sch ox_dv "assert" ox_in = Some d /\
  let ops := [OnK "f" (KRowSet (KAtom (n 8)) "b" (n 6)); OnL "l" (LDelItem 0)] in
  Forall (checked ox_sch) ops /\
  snap (orun ox_sch ox_dv (live_of ox_sch d) ops) "f" =
    OKeyed [(KAtom (VStr "u"), [n 5; n 2]); (KAtom (VStr "v"), [n 3; n 4]); (KAtom (n 8), [n 5; n 6])].
Proof.
  split.
  - intros t l [E | [E | []]]; [injection E as <- <- | discriminate]. repeat constructor; simpl; intuition discriminate.
  - eexists. split; [reflexivity |]. split; [repeat constructor; discriminate | vm_compute; reflexivity].
Qed.

(** C31: comparison. *)
Theorem C31_symmetric : forall sch d e, obj_ok sch d -> obj_ok sch e -> obj_distinct sch d -> obj_distinct sch e ->
  same_data sch d e = same_data sch e d.
Proof. exact same_data_sym. Qed.
Print Assumptions C31_symmetric.

Theorem C31_reflexive : forall sch d, obj_ok sch d -> obj_distinct sch d ->
  (same_data sch d d = true <-> no_nan sch d).
Proof. exact same_data_refl. Qed.
Print Assumptions C31_reflexive.

Theorem C31_transitive : forall sch d e g, obj_ok sch d -> obj_ok sch e -> obj_ok sch g ->
  obj_keys sch d -> obj_keys sch e ->
  same_data sch d e = true -> same_data sch e g = true -> same_data sch d g = true.
Proof. exact same_data_trans. Qed.
Print Assumptions C31_transitive.

Theorem C31_exact : forall sch d e, obj_ok sch d -> obj_ok sch e -> obj_keys sch d ->
  (same_data sch d e = true <-> same_objects sch d e).
Proof. exact same_data_iff. Qed.
Print Assumptions C31_exact.

Theorem C31_symmetric_refuted : exists sch d e, obj_ok sch d /\ obj_ok sch e /\
  same_data sch d e = true /\ same_data sch e d = false.
Proof. exists ox_sch, (listed2 (n 1) (n 1)), (listed2 (n 1) (n 2)). exact w_asym. Qed.
Print Assumptions C31_symmetric_refuted.

Theorem C31_reflexive_refuted : exists sch d, obj_ok sch d /\ same_data sch d d = false.
Proof. exists ox_sch, (listed2 VNaN (n 2)). exact w_irrefl. Qed.
Print Assumptions C31_reflexive_refuted.

Example C31_ex : obj_ok ox_sch (listed2 (n 1) (n 2)) /\ obj_distinct ox_sch (listed2 (n 1) (n 2)) /\
  same_data ox_sch (listed2 (n 1) (n 2)) (listed2 (n 2) (n 1)) = true.
Proof. split; [exact (listed2_ok _ _) |]. split; [exact listed2_distinct | vm_compute; reflexivity]. Qed.

(** C32: rows keep exactly their fields. *)
Theorem C32_rows_keep_shape : forall sch dv ops d, wf_schema sch -> live_ok sch d ->
  Forall (checked sch) ops -> live_ok sch (orun sch dv d ops).
Proof. intros sch dv ops d Hwf. apply orun_ok. now apply ts_of_nodup. Qed.
Print Assumptions C32_rows_keep_shape.

Theorem C32_write_read : forall dv t ts s k c f v, ktable_ok ts s ->
  dget pkey_eqb (k_rows s) k = Some (RoRow false c) -> In f (tdf ts) ->
  exists s' c', kstep dv t ts s (KRowSet k f v) = (s', false) /\
    dget pkey_eqb (k_rows s') k = Some (RoRow false c') /\
    cell_at ts c' f = Some v /\ (forall g, g <> f -> cell_at ts c' g = cell_at ts c g) /\
    (forall k', pkey_eqb k k' = false -> dget pkey_eqb (k_rows s') k' = dget pkey_eqb (k_rows s) k') /\
    map fst (k_rows s') = map fst (k_rows s) /\ k_frozen s' = k_frozen s.
Proof. exact write_read. Qed.
Print Assumptions C32_write_read.

Theorem C32_other_names_raise : forall dv t ts s k fz c f v, dget pkey_eqb (k_rows s) k = Some (RoRow fz c) ->
  ~ In f (tdf ts) -> kstep dv t ts s (KRowSet k f v) = (s, true).
Proof. exact write_other. Qed.
Print Assumptions C32_other_names_raise.

Theorem C32_list_rows : forall dv t ts s i c f v, NoDup (tdf ts) -> ltable_ok ts s ->
  nth_error (l_rows s) i = Some (RoRow false c) ->
  (In f (tdf ts) -> exists s' c', lstep dv t ts s (LRowSet i f v) = (s', false) /\
      nth_error (l_rows s') i = Some (RoRow false c') /\
      cell_at ts c' f = Some v /\ (forall g, g <> f -> cell_at ts c' g = cell_at ts c g) /\
      (forall j, j <> i -> nth_error (l_rows s') j = nth_error (l_rows s) j)) /\
  (~ In f (tdf ts) -> lstep dv t ts s (LRowSet i f v) = (s, true)).
Proof. exact write_read_list. Qed.
Print Assumptions C32_list_rows.

(** Rows of a table without data fields accept any name. *)
Theorem C32_dataless_rows_refuted : exists dv t ts s k f v r', tdf ts = [] /\ ktable_ok ts s /\
  kstep dv t ts s (KRowSet k f v) = (mkK false [(k, r')], false) /\ row_data r' = inr [(f, v)].
Proof.
  destruct w_dataless as (r' & A & B & C).
  exists [], "e", (mkT ["p"; "q"] []), (mkK false [(KTup [n 1; n 2], RoFree false [])]), (KTup [n 1; n 2]), "z", (n 7), r'.
  auto.
Qed.
Print Assumptions C32_dataless_rows_refuted.

Example C32_ex : wf_schema ox_sch /\ live_ok ox_sch ox_live /\
  Forall (checked ox_sch) [OnK "f" (KRowSet (KAtom (VStr "new")) "a" (n 4)); OnL "l" (LInsert 0 (RAtom (n 3)))].
Proof. split; [exact ox_wf |]. split; [exact ox_live_ok |]. repeat constructor; discriminate. Qed.

(** C33: missing keys. *)
Theorem C33_missing_key : forall dv t ts, NoDup (tdf ts) -> forall s k, k_frozen s = false -> dget pkey_eqb (k_rows s) k = None ->
  key_ok ts k = true ->
  exists r, default_row dv t ts r /\ k_getitem dv t ts s k = (mkK false (k_rows s ++ [(k, r)]), Some r).
Proof. exact missing_key. Qed.
Print Assumptions C33_missing_key.

Theorem C33_rejected_key : forall dv t ts s k, dget pkey_eqb (k_rows s) k = None ->
  k_frozen s = true \/ key_ok ts k = false -> k_getitem dv t ts s k = (s, None).
Proof. exact bad_key. Qed.
Print Assumptions C33_rejected_key.

Theorem C33_key_lengths : forall ts k, tpk ts <> [] ->
  (key_ok ts k = true <->
   match k with
   | KAtom _ => exists f, tpk ts = [f]
   | KTup l => List.length l = List.length (tpk ts) /\ List.length l <> 1
   end).
Proof. exact key_ok_iff. Qed.
Print Assumptions C33_key_lengths.

Theorem C33_reads_do_not_insert : forall dv t ts s ops, Forall (plain_read s) ops -> krun dv t ts s ops = s.
Proof. exact reads_do_not_insert. Qed.
Print Assumptions C33_reads_do_not_insert.

Example C33_ex : k_getitem ox_dv "f" (mkT ["k"] ["a"; "b"]) (mkK false []) (KAtom (n 1)) =
    (mkK false [(KAtom (n 1), RoRow false [n 5; n 0])], Some (RoRow false [n 5; n 0])) /\
  k_getitem ox_dv "f" (mkT ["k"] ["a"; "b"]) (mkK false []) (KTup [n 1; n 2]) = (mkK false [], None).
Proof. split; vm_compute; reflexivity. Qed.

(** C65: links. *)
Theorem C65_links_exact : forall nts fts m, NoDup (tpk nts ++ tdf nts) -> NoDup (tpk fts) -> onto_key nts fts m ->
  tpk fts <> [] -> tpk nts <> [] -> forall native foreign, keyed_ok nts native -> keyed_ok fts foreign ->
  (exists p, In p (tpk nts) /\ ~ In p (map fst m)) ->
  exists links, make_links nts fts m native foreign = Some links /\ map fst links = map fst foreign /\
    forall fk d, In (fk, d) links ->
      no_equal_keys (map fst d) /\
      (forall k r, In (k, r) native -> refers nts fts m k r fk -> In (own_key nts m k, r) d) /\
      (forall rk r, In (rk, r) d -> exists k, In (k, r) native /\ refers nts fts m k r fk /\ rk = own_key nts m k).
Proof. exact links_exact. Qed.
Print Assumptions C65_links_exact.

Theorem C65_one_to_one_exact : forall nts fts m, NoDup (tpk nts ++ tdf nts) -> NoDup (tpk fts) -> onto_key nts fts m ->
  tpk fts <> [] -> tpk nts <> [] -> forall native foreign, keyed_ok nts native -> keyed_ok fts foreign ->
  (forall p, In p (tpk nts) -> In p (map fst m)) ->
  exists links, make_one_links nts fts m native foreign = Some links /\ map fst links = map fst foreign /\
    forall fk o, In (fk, o) links ->
      match o with
      | Some r => exists k, In (k, r) native /\ refers nts fts m k r fk /\
          forall k' r', In (k', r') native -> refers nts fts m k' r' fk -> (k', r') = (k, r)
      | None => forall k r, In (k, r) native -> ~ refers nts fts m k r fk
      end.
Proof. exact one_links_exact. Qed.
Print Assumptions C65_one_to_one_exact.

Theorem C65_shared_field_refuted : exists nts fts m native foreign,
  set_eqb (tpk fts) (map snd m) = true /\ keyed_ok nts native /\ keyed_ok fts foreign /\
  (exists p, In p (tpk nts) /\ ~ In p (map fst m)) /\ make_links nts fts m native foreign = None.
Proof.
  destruct w_shared_link as (native & foreign & H).
  exists (mkT ["a"; "b"; "c"] []), (mkT ["x"] []), [("a", "x"); ("b", "x")], native, foreign. exact H.
Qed.
Print Assumptions C65_shared_field_refuted.

Example C65_ex : NoDup (tpk lx_nts ++ tdf lx_nts) /\ NoDup (tpk lx_fts) /\ onto_key lx_nts lx_fts lx_m /\
  keyed_ok lx_nts lx_native /\ keyed_ok lx_fts lx_foreign.
Proof. exact lx_hyps. Qed.
Example C65_links_ex : make_links lx_nts lx_fts lx_m lx_native lx_foreign =
  Some [(KAtom (VStr "egg"), [(KAtom (VStr "fat"), [n 1]); (KAtom (VStr "iron"), [n 2])]); (KAtom (VStr "ham"), [])].
Proof. exact lx_links. Qed.

(** C66: link names. *)
Theorem C66_link_names_distinct : forall order sch fks f g,
  (forall l, Permutation (order l) l) -> In f fks -> In g fks ->
  fk_native f = fk_native g -> fk_foreign f = fk_foreign g ->
  simple_fk sch f = true -> simple_fk sch g = true -> fk_map f <> [] -> fk_map g <> [] ->
  Forall no_underscore (map fst (fk_map f)) -> Forall no_underscore (map fst (fk_map g)) ->
  no_underscore (fk_native f) ->
  ~ same_set (map fst (fk_map f)) (map fst (fk_map g)) ->
  link_name order sch fks (fk_native f) (fk_foreign f) (map fst (fk_map f)) <>
  link_name order sch fks (fk_native g) (fk_foreign g) (map fst (fk_map g)).
Proof. exact link_names_distinct. Qed.
Print Assumptions C66_link_names_distinct.

Theorem C66_same_fields_refuted : exists sch f g, f <> g /\ simple_fk sch f = true /\ simple_fk sch g = true /\
  fk_native f = fk_native g /\ fk_foreign f = fk_foreign g /\
  forall order, link_name order sch [f; g] (fk_native f) (fk_foreign f) (map fst (fk_map f)) =
                link_name order sch [f; g] (fk_native g) (fk_foreign g) (map fst (fk_map g)).
Proof.
  destruct w_same_fields as (A & B & C & D). exists nx_sch, nx_ab, nx_ba. auto 10.
Qed.
Print Assumptions C66_same_fields_refuted.

Theorem C66_underscore_refuted : exists sch f g order, (forall l, Permutation (order l) l) /\
  ~ same_set (map fst (fk_map f)) (map fst (fk_map g)) /\ simple_fk sch f = true /\ simple_fk sch g = true /\
  fk_native f = fk_native g /\ fk_foreign f = fk_foreign g /\
  link_name order sch [f; g] (fk_native f) (fk_foreign f) (map fst (fk_map f)) =
  link_name order sch [f; g] (fk_native g) (fk_foreign g) (map fst (fk_map g)).
Proof.
  destruct w_underscore as (A & B & C & D). exists ux_sch, ux_1, ux_2, (fun l => l). auto 10.
Qed.
Print Assumptions C66_underscore_refuted.

Example C66_ex : simple_fk nx_sch nx_ab = true /\ simple_fk nx_sch nx_c = true /\
  Forall no_underscore (map fst (fk_map nx_ab)) /\ Forall no_underscore (map fst (fk_map nx_c)) /\
  no_underscore "t" /\ ~ same_set (map fst (fk_map nx_ab)) (map fst (fk_map nx_c)).
Proof. exact nx_hyps. Qed.
