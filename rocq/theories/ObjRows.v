(** * Building an object from the rows of its tables (used by every reader). *)
From Coq Require Import ZArith Bool List String Arith Lia Permutation.
From Verif Require Import PyVal PyValFacts PyDict PyDictFacts ListFacts Data FindTypes FindTypesFacts FK Obj ObjFacts ObjMore
  Factory FactoryFacts InfIO Params Names NamesFacts Utils Json.
Import ListNotations.
Local Open Scope string_scope.
Local Open Scope list_scope.

(** ** [mapO] *)

Lemma mapO_Forall2 {A B} (f : A -> outcome B) : forall l r, mapO f l = Ret r <-> Forall2 (fun x y => f x = Ret y) l r.
Proof.
  induction l as [| x l IH]; intros r; simpl.
  - split; [injection 1 as <-; constructor | now inversion 1].
  - split.
    + destruct (f x) as [y |] eqn:E; [| discriminate]. destruct (mapO f l) as [r' |]; [| discriminate].
      injection 1 as <-. constructor; auto. now apply IH.
    + inversion 1 as [| ? y ? r' Hy Hr]; subst. apply IH in Hr. now rewrite Hy, Hr.
Qed.

Lemma mapO_total {A B} (f : A -> outcome B) : forall l, (forall x, In x l -> exists y, f x = Ret y) ->
  exists r, mapO f l = Ret r.
Proof.
  induction l as [| x l IH]; intros H; simpl; eauto. destruct (H x) as [y ->]; [simpl; auto |].
  destruct IH as [r ->]; eauto. intros. apply H. simpl. auto.
Qed.

Lemma bindO_ret {A B} (o : outcome A) (f : A -> outcome B) y : bindO o f = Ret y <-> exists x, o = Ret x /\ f x = Ret y.
Proof. destruct o; simpl; split; eauto. - intros (x & E & H). now injection E as ->. - discriminate. - intros (x & E & _). discriminate. Qed.

(** ** Rows of a file *)

(** The row [x] of a document lists the cells [r] in the order of the fields,
    or names each of them. *)
Definition describes (fields : list string) (x : rowin) (r : list value) : Prop :=
  x = RSeq r \/ exists l, x = RDict l /\ Permutation l (combine fields r).

(** A one-field key is the scalar itself, not a tuple of length one. *)
Definition proper_keys (sch : schema) (d : obj) : Prop := forall t ts, In (t, ts) sch ->
  match d t with OKeyed l => forall k r, In (k, r) l -> k = packed (key_cells k) | OListed _ => True end.

Lemma describes_get : forall fields l (r : list value) f v, NoDup fields -> List.length r = List.length fields ->
  Permutation l (combine fields r) -> In (f, v) (combine fields r) -> dget String.eqb l f = Some v /\ last_bind String.eqb l f = Some v.
Proof.
  intros fields l r f v Hn Hl P Hin.
  assert (NoDup (map fst l)) as Hd.
  { apply (Permutation_NoDup (l := map fst (combine fields r))).
    - symmetry. now apply Permutation_map.
    - rewrite combine_keys; auto. }
  assert (dget String.eqb l f = Some v) as Hg.
  { apply dget_In_NoDup; auto. eapply Permutation_in; [symmetry; exact P | auto]. }
  split; auto. rewrite (last_bind_distinct String.eqb); auto using String.eqb_sym.
  - intros a b c Ha Hb. apply String.eqb_eq in Ha, Hb. subst. apply String.eqb_refl.
  - now apply (keys_distinct_NoDup String.eqb String.eqb_eq).
Qed.

Lemma describes_fits : forall dv t ts x r, NoDup (tdf ts) -> List.length r = List.length (tdf ts) ->
  describes (tdf ts) x r -> fits dv t ts x r.
Proof.
  intros dv t ts x r Hn Hl [-> | (l & -> & P)]; simpl; auto. split; [| split; auto].
  - intros f v Hin. apply (Permutation_in _ P) in Hin. now apply in_combine_l in Hin.
  - intros f Hf. unfold cell_at, given.
    assert (exists v, In (f, v) (combine (tdf ts) r)) as [v Hv].
    { apply In_nth_error in Hf as [i Hi].
      assert (i < List.length r) as Hb by (rewrite Hl; apply nth_error_Some; congruence).
      destruct (nth_error r i) as [v |] eqn:E; [| apply nth_error_None in E; lia].
      exists v. pose proof (dget_combine _ _ _ _ _ Hn Hi E) as G. apply dget_In_NoDup in G; auto.
      now rewrite combine_keys. }
    destruct (describes_get _ _ _ _ _ Hn Hl P Hv) as [_ ->].
    apply dget_In_NoDup; auto. now rewrite combine_keys.
Qed.

Lemma map_get_combine : forall fields l (r : list value), NoDup fields -> List.length r = List.length fields ->
  Permutation l (combine fields r) -> map (fun f => dget_or String.eqb l f (VNum (of_int 0))) fields = r.
Proof.
  intros fields l r Hn Hl P.
  assert (forall fs rs, List.length rs = List.length fs -> (forall f v, In (f, v) (combine fs rs) -> In (f, v) (combine fields r)) ->
            map (fun f => dget_or String.eqb l f (VNum (of_int 0))) fs = rs) as H.
  { induction fs as [| f fs IH]; intros [| v rs] Hlen Hsub; try discriminate; auto. simpl. f_equal.
    - unfold dget_or. destruct (describes_get _ _ _ f v Hn Hl P) as [-> _]; auto. apply Hsub. simpl. auto.
    - apply IH; [now injection Hlen |]. intros. apply Hsub. simpl. auto. }
  now apply H.
Qed.

Lemma describes_fits_keyed : forall ts x k r, wf_tschema ts ->
  key_shape ts k -> k = packed (key_cells k) -> List.length r = List.length (tdf ts) -> tpk ts <> [] ->
  describes (tfields ts) x (key_cells k ++ r) -> fits_keyed ts x (k, r).
Proof.
  intros ts x k r Hn Hk Hp Hl Hne Hd. unfold tfields in *.
  assert (List.length (key_cells k) = List.length (tpk ts)) as Hkl by (destruct k; simpl in *; auto).
  exists (key_cells k ++ r). split; [rewrite !app_length; lia |].
  assert (firstn (List.length (tpk ts)) (key_cells k ++ r) = key_cells k) as ->
    by (rewrite <- Hkl, firstn_app, Nat.sub_diag, firstn_all, app_nil_r; reflexivity).
  assert (skipn (List.length (tpk ts)) (key_cells k ++ r) = r) as ->
    by (rewrite <- Hkl, skipn_app, Nat.sub_diag, skipn_all; reflexivity).
  split; [| split; auto]. destruct Hd as [-> | (l & -> & P)]; auto. split.
  - intros f v Hin. apply (Permutation_in _ P) in Hin. now apply in_combine_l in Hin.
  - symmetry. apply map_get_combine; auto. rewrite !app_length. lia.
Qed.

Lemma describes_shape : forall fields x r, List.length r = List.length fields -> describes fields x r -> has_shape fields x.
Proof.
  intros fields x r Hl [-> | (l & -> & P)]; simpl; auto.
  intros f v Hin. apply (Permutation_in _ P) in Hin. now apply in_combine_l in Hin.
Qed.

Lemma Forall2_In_l {A B} (P : A -> B -> Prop) : forall l m x, Forall2 P l m -> In x l -> exists y, In y m /\ P x y.
Proof.
  intros l m x H. induction H as [| a b l m Hab _ IH]; intros Hin; [contradiction |]. destruct Hin as [-> | Hin].
  - exists b. simpl. auto.
  - destruct (IH Hin) as (y & A1 & A2). exists y. simpl. auto.
Qed.

Lemma Forall2_map_r {A B C} (P : A -> C -> Prop) (g : B -> C) : forall l m, Forall2 P l (map g m) <-> Forall2 (fun x y => P x (g y)) l m.
Proof.
  induction l as [| x l IH]; intros [| y m]; simpl; split; intros H; inversion H; subst; constructor; auto; now apply IH.
Qed.

Lemma Forall2_imp2 {A B} (P Q : A -> B -> Prop) : forall l m, (forall x y, In x l -> In y m -> P x y -> Q x y) ->
  Forall2 P l m -> Forall2 Q l m.
Proof.
  intros l m H F. induction F as [| x y l m Hxy F IH]; constructor.
  - apply H; simpl; auto.
  - apply IH. intros. apply H; simpl; auto.
Qed.

(** One table. *)
Lemma table_from_rows : forall dv t ts rows tb, wf_tschema ts -> table_ok ts tb ->
  match tb with
  | OKeyed l => no_equal_keys (map fst l) /\ forall k r, In (k, r) l -> k = packed (key_cells k)
  | OListed _ => True
  end ->
  Forall2 (describes (tfields ts)) rows (full_rows tb) ->
  init_one dv t ts (TRows rows) = Some tb /\ List.length rows = out_length tb.
Proof.
  intros dv t ts rows tb Hn Hok Hk Hf. unfold table_ok in Hok. unfold init_one.
  assert (NoDup (tdf ts)) as Hnd by (now apply NoDup_app_r in Hn).
  destruct (tpk ts) as [| p pk] eqn:Ep.
  - destruct tb as [l | l]; [contradiction |]. simpl in Hf. unfold tfields in Hf. rewrite Ep in Hf. cbn [app] in Hf.
    split; [| simpl; eapply Forall2_length'; eauto].
    assert (good_rows (tdf ts) rows = true) as ->.
    { apply good_rows_iff. intros x Hx. destruct (Forall2_In_l _ _ _ _ Hf Hx) as (r & Hr & Hd).
      eapply describes_shape; eauto. }
    assert (map_opt (row_factory dv t ts) rows = Some l) as ->; auto.
    apply map_opt_Forall2. eapply Forall2_imp2; [| exact Hf]. intros x r Hx Hr Hd. apply row_factory_iff; auto.
    apply describes_fits; auto.
  - destruct tb as [l | l]; [| contradiction]. rewrite <- Ep in *. assert (tpk ts <> []) as Hne by congruence.
    destruct Hk as [Hk1 Hk2]. simpl in Hf. rewrite (Forall2_map_r (describes (tfields ts)) (fun kr : pkey * row => key_cells (fst kr) ++ snd kr)) in Hf.
    split; [| simpl; eapply Forall2_length'; eauto].
    assert (forall x kr, In kr l -> describes (tfields ts) x (key_cells (fst kr) ++ snd kr) -> fits_keyed ts x kr) as Hfit.
    { intros x [k r] Hin Hd. destruct (Hok k r Hin) as [H1 H2]. apply describes_fits_keyed; auto. eapply Hk2; eauto. }
    assert (good_rows (tpk ts ++ tdf ts) rows = true) as Hg.
    { apply good_rows_iff. intros x Hx. destruct (Forall2_In_l _ _ _ _ Hf Hx) as ([k r] & Hr & Hd).
      eapply describes_shape; [| exact Hd]. destruct (Hok k r Hr) as [H1 H2].
      cbn [fst snd]. unfold tfields. rewrite !app_length, H2. f_equal. destruct k; simpl in *; auto. }
    rewrite Hg.
    assert (map_opt (keyed_row dv t ts) rows = Some l) as ->.
    { apply map_opt_Forall2. eapply Forall2_imp2; [| exact Hf]. intros x kr Hx Hkr Hd.
      apply keyed_row_iff; auto. now apply (proj1 (good_rows_iff _ _) Hg). }
    cbn [option_map]. do 2 f_equal. apply dict_of_distinct. now apply no_equal_keys_iff.
Qed.

(** Whatever the rows describe is what the constructor builds. *)
Theorem construct_from_rows : forall sch dv mode d inputs, wf_schema sch -> obj_ok sch d -> obj_keys sch d -> proper_keys sch d ->
  NoDup (map fst inputs) ->
  (forall t inp, In (t, inp) inputs -> exists ts rows, In (t, ts) sch /\ inp = TRows rows /\
     Forall2 (describes (tfields ts)) rows (full_rows (d t))) ->
  (forall t ts, In (t, ts) sch -> ~ In t (map fst inputs) -> full_rows (d t) = []) ->
  exists e, construct sch dv mode inputs = Some e /\ forall t ts, In (t, ts) sch -> e t = d t.
Proof.
  intros sch dv mode d inputs Hwf Hok Hks Hpr Hn Hin Hout.
  assert (forall t ts rows, In (t, ts) sch -> Forall2 (describes (tfields ts)) rows (full_rows (d t)) ->
            init_one dv t ts (TRows rows) = Some (d t) /\ List.length rows = out_length (d t)) as Hone.
  { intros t ts rows Hs Hf. apply table_from_rows; auto.
    - now apply Hwf in Hs.
    - specialize (Hks _ _ Hs). specialize (Hpr _ _ Hs). now destruct (d t). }
  assert (forall t inp, In (t, inp) inputs -> build_one sch dv (t, inp) = Some (t, d t)) as Hb.
  { intros t inp Hi. destruct (Hin _ _ Hi) as (ts & rows & Hs & -> & Hf). unfold build_one. cbn [fst snd].
    pose proof (proj2 (schema_get sch t ts (proj1 Hwf)) Hs) as ->. now destruct (Hone _ _ _ Hs Hf) as [-> _]. }
  assert (exists built, map_opt (build_one sch dv) inputs = Some built) as [built E].
  { apply map_opt_some. intros [t inp] Hi. eauto. }
  assert (forall t inp, In (t, inp) inputs -> dget String.eqb built t = Some (d t)) as Hget.
  { intros t inp Hi. destruct (built_get _ _ _ _ _ _ Hn E Hi) as (ts & tb & A & B & C). rewrite C.
    specialize (Hb _ _ Hi). unfold build_one in Hb. cbn [fst snd] in Hb. rewrite A, B in Hb. now injection Hb as ->. }
  unfold construct. fold (build_one sch dv). rewrite E. cbv zeta.
  assert (forall b, (b && existsb (fun ti => Nat.ltb (out_length match dget String.eqb built (fst ti) with
                        | Some tb => tb
                        | None => match dget String.eqb sch (fst ti) with Some ts => no_rows ts | None => OListed [] end
                        end) (in_length (snd ti))) inputs) = false) as ->.
  { intros b. apply andb_false_intro2. apply not_true_is_false. intros Hx. apply existsb_exists in Hx as ([t inp] & Hi & Hl).
    cbn [fst snd] in Hl. rewrite (Hget _ _ Hi) in Hl. apply Nat.ltb_lt in Hl.
    destruct (Hin _ _ Hi) as (ts & rows & Hs & -> & Hf). destruct (Hone _ _ _ Hs Hf) as [_ Hlen]. simpl in Hl. lia. }
  eexists. split; [reflexivity |]. intros t ts Hs. cbv beta.
  destruct (in_dec string_dec t (map fst inputs)) as [Hi | Hi].
  - apply in_map_iff in Hi as ([t' inp] & <- & Hi). cbn [fst]. now rewrite (Hget _ _ Hi).
  - rewrite (built_none _ _ _ _ _ E Hi). pose proof (proj2 (schema_get sch t ts (proj1 Hwf)) Hs) as ->.
    specialize (Hout _ _ Hs Hi). specialize (Hok _ _ Hs). unfold no_rows, table_ok in *.
    destruct (tpk ts) as [| p0 pk0], (d t) as [l0 | l0]; try contradiction; simpl in Hout.
    + now subst.
    + destruct l0; [reflexivity | discriminate].
Qed.

(** ** The schema of an accepted declaration *)

Lemma in_plain : forall f t ts, In (t, ts) (plain_schema f) <-> In (t, Fields ts) (f_decl f).
Proof.
  intros f t ts. unfold plain_schema. rewrite in_flat_map. split.
  - intros ([t' [|ts']] & Hin & H); simpl in H; [contradiction |]. destruct H as [H | []]. now injection H as -> ->.
  - intros H. exists (t, Fields ts). simpl. auto.
Qed.

Lemma plain_names : forall f t, In t (map fst (plain_schema f)) -> In t (map fst (f_decl f)).
Proof. intros f t H. apply in_map_iff in H as ([t' ts] & <- & H). apply in_plain in H. now apply (in_map fst) in H. Qed.

Lemma plain_legal : forall f, decl_ok (f_decl f) = true -> legal_names (map fst (plain_schema f)).
Proof.
  intros f H. apply decl_ok_legal in H as [H1 H2]. split.
  - clear H2. unfold plain_schema. induction (f_decl f) as [| [t [|ts]] l IH]; simpl in *.
    + constructor.
    + inversion H1; auto.
    + inversion H1 as [| ? ? Hn Hd]; subst. constructor; auto. intros Hc. apply Hn.
      apply in_map_iff in Hc as (t' & E & Hc). apply in_map_iff in Hc as ([t2 ts2] & E2 & Hc). cbn [fst] in E2. subst t2.
      rewrite <- E. apply in_map. apply in_flat_map in Hc as ([t3 d3] & Hin & Hc).
      destruct d3; simpl in Hc; [contradiction |]. destruct Hc as [Hc | []]. injection Hc as -> _. now apply (in_map fst) in Hin.
  - intros t Ht. apply H2. now apply plain_names.
Qed.

Lemma plain_wf : forall f, decl_ok (f_decl f) = true -> wf_schema (plain_schema f).
Proof.
  intros f H. split.
  - apply legal_NoDup. now apply plain_legal.
  - intros t ts Hin. apply in_plain in Hin. unfold decl_ok in H. rewrite !andb_true_iff in H. destruct H as [_ H].
    rewrite forallb_forall in H. specialize (H _ Hin). cbn [snd decl_table_ok] in H. rewrite !andb_true_iff in H.
    now apply distinct_b_iff.
Qed.

Lemma plain_is_table : forall f t ts, In (t, ts) (plain_schema f) -> is_table f t = true.
Proof.
  intros f t ts H. apply in_plain in H. unfold is_table, dmem. destruct (dget String.eqb (f_decl f) t) eqn:E; auto.
  pose proof (proj1 (dget_None String.eqb _ _) E _ _ H). now rewrite String.eqb_refl in *.
Qed.
