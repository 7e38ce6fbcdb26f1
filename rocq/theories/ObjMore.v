(** * Construction of whole objects, duplicates, round trips, comparison. *)
From Coq Require Import ZArith Bool List String Arith Lia Permutation ListDec.
From Verif Require Import PyVal PyValFacts PyDict PyDictFacts ListFacts Data FindTypes FindTypesFacts FK FKFacts
  GraphFacts Obj ObjFacts.
Import ListNotations.
Local Open Scope string_scope.
Local Open Scope list_scope.

Lemma schema_get : forall (sch : schema) t ts, NoDup (map fst sch) ->
  (dget String.eqb sch t = Some ts <-> In (t, ts) sch).
Proof.
  intros sch t ts Hn. split.
  - intros H. apply dget_In in H as (t' & E & Hin). apply String.eqb_eq in E. now subst.
  - intros H. apply (In_dget String.eqb String.eqb_refl); auto.
    now apply (keys_distinct_NoDup String.eqb String.eqb_eq).
Qed.

Definition data_nodup (sch : schema) : Prop := forall t ts, In (t, ts) sch -> NoDup (tdf ts).

Lemma wf_data_nodup : forall sch, wf_schema sch -> data_nodup sch.
Proof. intros sch [_ H] t ts Hin. apply H in Hin. now apply NoDup_app_r in Hin. Qed.

(** The tables built, before the check for duplicates. *)
Definition build_one (sch : schema) (dv : defaults) (ti : string * tablein) : option (string * otable) :=
  match dget String.eqb sch (fst ti) with
  | Some ts => option_map (pair (fst ti)) (init_one dv (fst ti) ts (snd ti))
  | None => None
  end.

Lemma built_get : forall sch dv inputs built t inp, NoDup (map fst inputs) ->
  map_opt (build_one sch dv) inputs = Some built -> In (t, inp) inputs ->
  exists ts tb, dget String.eqb sch t = Some ts /\ init_one dv t ts inp = Some tb /\
                dget String.eqb built t = Some tb.
Proof.
  intros sch dv inputs built t inp Hn H. apply map_opt_Forall2 in H. induction H as [| [t0 inp0] b l m Hb _ IH].
  - intros [].
  - simpl in Hn. inversion Hn as [| ? ? Hn1 Hn2]; subst. unfold build_one in Hb. cbn [fst snd] in Hb.
    destruct (dget String.eqb sch t0) as [ts |] eqn:Es; [| discriminate].
    destruct (init_one dv t0 ts inp0) as [tb |] eqn:Ei; [| discriminate]. simpl in Hb. injection Hb as <-.
    intros [E | Hin].
    + injection E as <- <-. exists ts, tb. simpl. rewrite String.eqb_refl. auto.
    + destruct (IH Hn2 Hin) as (ts' & tb' & A & B & C). exists ts', tb'. split; [auto |]. split; [auto |].
      simpl. destruct (String.eqb t0 t) eqn:E; auto. apply String.eqb_eq in E. subst. exfalso. apply Hn1.
      now apply (in_map fst) in Hin.
Qed.

Lemma built_none : forall sch dv inputs built t,
  map_opt (build_one sch dv) inputs = Some built -> ~ In t (map fst inputs) -> dget String.eqb built t = None.
Proof.
  intros sch dv inputs built t H. apply map_opt_Forall2 in H. induction H as [| [t0 inp0] b l m Hb _ IH]; auto.
  intros Hn. unfold build_one in Hb. cbn [fst snd] in Hb.
  destruct (dget String.eqb sch t0) as [ts |]; [| discriminate].
  destruct (init_one dv t0 ts inp0) as [tb |]; [| discriminate]. simpl in Hb. injection Hb as <-. simpl.
  destruct (String.eqb t0 t) eqn:E.
  - apply String.eqb_eq in E. subst. exfalso. apply Hn. simpl. auto.
  - apply IH. intros Hc. apply Hn. simpl. auto.
Qed.

(** Whatever was built holds the given rows; other tables are empty. *)
Theorem construct_holds : forall sch dv mode inputs d, wf_schema sch -> NoDup (map fst inputs) ->
  construct sch dv mode inputs = Some d ->
  (forall t ts inp, In (t, ts) sch -> In (t, inp) inputs -> holds dv t ts inp (d t)) /\
  (forall t ts, In (t, ts) sch -> ~ In t (map fst inputs) ->
     d t = match tpk ts with [] => OListed [] | _ => OKeyed [] end).
Proof.
  intros sch dv mode inputs d Hwf Hn H. unfold construct in H. fold (build_one sch dv) in H.
  destruct (map_opt (build_one sch dv) inputs) as [built |] eqn:E; [| discriminate]. cbv zeta in H.
  destruct (_ && _) in H; [discriminate |]. injection H as <-. split.
  - intros t ts inp Hs Hi. destruct (built_get _ _ _ _ _ _ Hn E Hi) as (ts' & tb & A & B & C). rewrite C.
    apply schema_get in Hs; [| apply Hwf]. rewrite Hs in A. injection A as <-.
    apply init_one_holds; auto. apply schema_get in Hs; [| apply Hwf]. eapply wf_data_nodup; eauto.
  - intros t ts Hs Hi. rewrite (built_none _ _ _ _ _ E Hi). apply schema_get in Hs; [| apply Hwf]. rewrite Hs.
    unfold no_rows. now destruct (tpk ts).
Qed.

Definition acceptable (sch : schema) (inputs : list (string * tablein)) : Prop :=
  forall t inp, In (t, inp) inputs -> exists ts, In (t, ts) sch /\ good_input ts inp.

Lemma build_some : forall sch dv inputs, wf_schema sch ->
  (exists built, map_opt (build_one sch dv) inputs = Some built) <-> acceptable sch inputs.
Proof.
  intros sch dv inputs Hwf. rewrite map_opt_some. unfold acceptable, build_one. split.
  - intros H t inp Hin. destruct (H _ Hin) as [[t' tb] Hb]. cbn [fst snd] in Hb.
    destruct (dget String.eqb sch t) as [ts |] eqn:Es; [| discriminate]. exists ts.
    apply schema_get in Es; [| apply Hwf]. split; auto.
    apply (init_one_some dv t ts inp). { eapply wf_data_nodup; eauto. }
    destruct (init_one dv t ts inp); [eauto | discriminate].
  - intros H [t inp] Hin. destruct (H _ _ Hin) as (ts & Hs & Hg). cbn [fst snd].
    pose proof Hs as Hs'. apply schema_get in Hs'; [| apply Hwf]. rewrite Hs'.
    apply (init_one_some dv t ts inp) in Hg; [| eapply wf_data_nodup; eauto]. destruct Hg as [tb ->]. simpl. eauto.
Qed.

(** Without the check for duplicates, exactly the well-shaped input is accepted. *)
Theorem construct_accepts : forall sch dv mode inputs, wf_schema sch -> mode <> "assert" ->
  (exists d, construct sch dv mode inputs = Some d) <-> acceptable sch inputs.
Proof.
  intros sch dv mode inputs Hwf Hm. rewrite <- (build_some sch dv) by auto. unfold construct.
  fold (build_one sch dv). apply String.eqb_neq in Hm. rewrite Hm. cbn [andb].
  destruct (map_opt (build_one sch dv) inputs); split; intros [? H]; eauto; discriminate.
Qed.

(** ** Duplicates *)

(** No two rows of a list-style input of a keyed table have equal keys. *)
Definition keys_of_rows (ts : tschema) (rows : list rowin) (ks : list pkey) : Prop :=
  Forall2 (fun x k => exists r, fits_keyed ts x (k, r)) rows ks.

Definition no_lost_rows (sch : schema) (inputs : list (string * tablein)) : Prop :=
  forall t ts rows ks, In (t, TRows rows) inputs -> In (t, ts) sch -> tpk ts <> [] -> keys_of_rows ts rows ks ->
    no_equal_keys ks.

Lemma dset_length {K V} (eqb : K -> K -> bool) : forall (d : list (K * V)) k v,
  List.length (dset eqb d k v) = if dmem eqb d k then List.length d else S (List.length d).
Proof.
  induction d as [| [k' v'] d IH]; intros k v; auto. unfold dmem in *. simpl.
  destruct (eqb k' k); simpl; auto. rewrite IH. now destruct (dget eqb d k).
Qed.

Lemma dupdate_length {K V} (eqb : K -> K -> bool) : forall (l d : list (K * V)),
  List.length (dupdate eqb d l) <= List.length d + List.length l.
Proof.
  induction l as [| [k v] l IH]; intros d; simpl; [lia |]. unfold dupdate in *. simpl.
  specialize (IH (dset eqb d k v)). rewrite dset_length in IH. destruct (dmem eqb d k); lia.
Qed.

(** A dict built from pairs has fewer entries iff two keys are equal. *)
Lemma dupdate_lost : forall (l d : list (pkey * row)),
  keys_distinct pkey_eqb (map fst d) ->
  (List.length (dupdate pkey_eqb d l) = List.length d + List.length l <->
   keys_distinct pkey_eqb (map fst (d ++ l))).
Proof.
  induction l as [| [k v] l IH]; intros d Hd.
  - rewrite app_nil_r. simpl. split; [auto | lia].
  - unfold dupdate. cbn [fold_left fst snd]. fold (dupdate pkey_eqb (dset pkey_eqb d k v) l).
    destruct (dget pkey_eqb d k) as [w |] eqn:E.
    + pose proof (dupdate_length pkey_eqb l (dset pkey_eqb d k v)) as Hl. rewrite dset_length in Hl.
      unfold dmem in Hl. rewrite E in Hl. simpl. split; [lia |].
      intros Hk. exfalso. apply dget_In in E as (k' & Ek & Hin).
      rewrite map_app in Hk. apply no_equal_keys_iff in Hk. unfold no_equal_keys in Hk. rewrite map_app in Hk.
      apply (NoDup_app_disj _ _ (canon_key k) Hk).
      * apply pkey_eqb_iff in Ek. rewrite <- Ek. apply in_map, in_map_iff. exists (k', w). auto.
      * simpl. auto.
    + rewrite (dset_absent pkey_eqb) by auto.
      assert (keys_distinct pkey_eqb (map fst (d ++ [(k, v)]))) as Hd'.
      { rewrite map_app. simpl. apply (keys_distinct_app_single pkey_eqb); auto.
        intros k' Hin. apply in_map_iff in Hin as ([k1 v1] & <- & Hin). simpl.
        apply (proj1 (dget_None pkey_eqb d k) E k1 v1 Hin). }
      specialize (IH _ Hd'). rewrite app_length, <- app_assoc in IH. cbn [app List.length] in *.
      rewrite <- IH. lia.
Qed.

Lemma Forall2_length' {A B} (P : A -> B -> Prop) : forall l m, Forall2 P l m -> List.length l = List.length m.
Proof. intros l m H. induction H; simpl; auto. Qed.

Lemma fits_keyed_fun : forall ts x a b, fits_keyed ts x a -> fits_keyed ts x b -> a = b.
Proof.
  intros ts x [k r] [k' r'] (c & _ & Hc & H1 & H2) (c' & _ & Hc' & H3 & H4). cbn [fst snd] in *. subst.
  destruct x as [l | l | v].
  - destruct Hc as [_ ->], Hc' as [_ ->]. reflexivity.
  - now subst.
  - now subst.
Qed.

Lemma pairs_keys : forall ts rows pairs, Forall2 (fits_keyed ts) rows pairs -> keys_of_rows ts rows (map fst pairs).
Proof.
  intros ts rows pairs H. induction H as [| x [k r] l m Hx _ IH]; simpl; constructor; auto. exists r. exact Hx.
Qed.

Lemma keys_of_rows_fun : forall ts rows a b, keys_of_rows ts rows a -> keys_of_rows ts rows b -> a = b.
Proof.
  intros ts rows a b Ha. revert b. induction Ha as [| x k l m (r & Hx) _ IH]; intros b Hb; inversion Hb as [| ? k' ? m' (r' & Hx') Hb']; subst; auto.
  f_equal; auto. pose proof (fits_keyed_fun _ _ _ _ Hx Hx') as E. now injection E.
Qed.

(** One table: rows are lost exactly when keys coincide. *)
Lemma lost_rows : forall dv t ts inp tb, NoDup (tdf ts) -> init_one dv t ts inp = Some tb ->
  out_length tb <= in_length inp /\ (out_length tb < in_length inp <->
   exists rows ks, inp = TRows rows /\ tpk ts <> [] /\ keys_of_rows ts rows ks /\ ~ no_equal_keys ks).
Proof.
  intros dv t ts inp tb Hn H. unfold init_one in H. destruct (tpk ts) as [| p pk] eqn:Ep.
  - assert (out_length tb = in_length inp) as ->.
    { destruct inp as [l | rows]; cbv zeta in H; destruct (good_rows _ _); try discriminate.
      - destruct (map_opt _ _) as [r |] eqn:E in H; [| discriminate]. injection H as <-.
        apply map_opt_Forall2 in E. apply Forall2_length' in E. simpl. rewrite map_length in E. auto.
      - destruct (map_opt _ _) as [r |] eqn:E in H; [| discriminate]. injection H as <-.
        apply map_opt_Forall2 in E. apply Forall2_length' in E. simpl. auto. }
    split; [lia |]. split; [lia |]. intros (rows & ks & _ & Hc & _). congruence.
  - rewrite <- Ep in *. assert (tpk ts <> []) as Hne by congruence. destruct inp as [l | rows].
    + destruct (_ && _) in H; [| discriminate]. destruct (map_opt _ _) as [r |] eqn:E in H; [| discriminate].
      injection H as <-. apply map_opt_Forall2 in E. apply Forall2_length' in E. simpl. split; [lia |].
      split; [lia |]. intros (rows & ks & Hc & _). discriminate.
    + destruct (good_rows (tpk ts ++ tdf ts) rows) eqn:Eg; [| discriminate].
      destruct (map_opt (keyed_row dv t ts) rows) as [pairs |] eqn:E; [| discriminate]. injection H as <-.
      apply map_opt_Forall2 in E. pose proof (Forall2_length' _ _ _ E) as El.
      assert (Forall2 (fits_keyed ts) rows pairs) as Hf.
      { eapply Forall2_imp; [| exact E]. intros x y Hx Hxy. apply (keyed_row_iff dv t ts) in Hxy; auto.
        now apply (proj1 (good_rows_iff _ _) Eg). }
      apply pairs_keys in Hf. simpl. pose proof (dupdate_length pkey_eqb pairs []) as Hle. simpl in Hle.
      unfold dict_of. split; [lia |].
      pose proof (dupdate_lost pairs [] I) as Hl. simpl in Hl. rewrite no_equal_keys_iff in Hl. split.
      * intros Hlt. exists rows, (map fst pairs). repeat split; auto. intros Hc. apply Hl in Hc. lia.
      * intros (rows' & ks & Er & _ & Hk & Hdup). injection Er as <-.
        rewrite (keys_of_rows_fun _ _ _ _ Hk Hf) in Hdup.
        assert (List.length (dupdate pkey_eqb [] pairs) <> List.length pairs) by tauto. lia.
Qed.

Lemma no_equal_keys_dec : forall l, no_equal_keys l \/ ~ no_equal_keys l.
Proof.
  assert (forall a b : pkey, {a = b} + {a <> b}) as Hdec.
  { intros [a | a] [b | b]; try (right; discriminate).
    - destruct (value_eq_dec a b); [left | right]; congruence.
    - destruct (list_eq_dec value_eq_dec a b); [left | right]; congruence. }
  intros l. unfold no_equal_keys. destruct (ListDec.NoDup_dec Hdec (map canon_key l)); auto.
Qed.

(** With "assert" the constructor succeeds iff the input is well shaped and no
    two rows of a list-style keyed table have equal keys. *)
Theorem construct_assert : forall sch dv inputs, wf_schema sch -> NoDup (map fst inputs) ->
  (exists d, construct sch dv "assert" inputs = Some d) <-> acceptable sch inputs /\ no_lost_rows sch inputs.
Proof.
  intros sch dv inputs Hwf Hn. rewrite <- (build_some sch dv) by auto. unfold construct. fold (build_one sch dv).
  destruct (map_opt (build_one sch dv) inputs) as [built |] eqn:E.
  2:{ split; [intros [d H]; discriminate | intros [[b H] _]; discriminate]. }
  cbv zeta. cbn [String.eqb Ascii.eqb Bool.eqb andb].
  match goal with |- context [existsb ?h inputs] => set (lost := h) end.
  assert (existsb lost inputs = false <-> no_lost_rows sch inputs) as Hl.
  { split.
    - intros Hf t ts rows ks Hin Hs Hne Hk. destruct (no_equal_keys_dec ks) as [Hd | Hd]; auto. exfalso.
      assert (existsb lost inputs = true); [| congruence].
      apply existsb_exists. exists (t, TRows rows). split; auto. unfold lost. cbn [fst snd].
      destruct (built_get _ _ _ _ _ _ Hn E Hin) as (ts' & tb & A & B & C). rewrite C. apply Nat.ltb_lt.
      apply schema_get in Hs; [| apply Hwf]. assert (ts' = ts) by congruence. subst ts'.
      apply schema_get in Hs; [| apply Hwf].
      apply (lost_rows dv t ts (TRows rows) tb); auto; [eapply wf_data_nodup; eauto |]. exists rows, ks. auto.
    - intros Hnl. apply not_true_iff_false. intros Hc. apply existsb_exists in Hc as ([t inp] & Hin & Hlt).
      unfold lost in Hlt. cbn [fst snd] in Hlt.
      destruct (built_get _ _ _ _ _ _ Hn E Hin) as (ts & tb & A & B & C). rewrite C in Hlt. apply Nat.ltb_lt in Hlt.
      apply schema_get in A; [| apply Hwf].
      apply (lost_rows dv t ts inp tb) in Hlt; auto; [| eapply wf_data_nodup; eauto].
      destruct Hlt as (rows & ks & -> & Hne & Hk & Hd). apply Hd. eapply Hnl; eauto. }
  destruct (existsb lost inputs).
  - split; [intros [d H]; discriminate |]. intros [_ H]. apply Hl in H. discriminate.
  - split; [| eauto]. intros _. split; [eauto |]. now apply Hl.
Qed.

(** ... and then every row is in the table under its key, in order. *)
Theorem construct_assert_rows : forall sch dv inputs d t ts rows, wf_schema sch -> NoDup (map fst inputs) ->
  construct sch dv "assert" inputs = Some d -> In (t, ts) sch -> In (t, TRows rows) inputs -> tpk ts <> [] ->
  exists l, d t = OKeyed l /\ Forall2 (fits_keyed ts) rows l.
Proof.
  intros sch dv inputs d t ts rows Hwf Hn H Hs Hin Hne.
  pose proof (proj1 (construct_assert sch dv inputs Hwf Hn) (ex_intro _ d H)) as [_ Hnl].
  unfold construct in H. fold (build_one sch dv) in H.
  destruct (map_opt (build_one sch dv) inputs) as [built |] eqn:E; [| discriminate]. cbv zeta in H.
  destruct (_ && _) in H; [discriminate |]. injection H as <-.
  destruct (built_get _ _ _ _ _ _ Hn E Hin) as (ts' & tb & A & B & C). rewrite C.
  pose proof Hs as Hs'. apply schema_get in Hs'; [| apply Hwf]. rewrite Hs' in A. injection A as <-.
  unfold init_one in B. destruct (tpk ts) as [| p pk] eqn:Ep; [congruence |]. rewrite <- Ep in *.
  destruct (good_rows (tpk ts ++ tdf ts) rows) eqn:Eg; [| discriminate].
  destruct (map_opt (keyed_row dv t ts) rows) as [pairs |] eqn:Em; [| discriminate]. injection B as <-.
  apply map_opt_Forall2 in Em.
  assert (Forall2 (fits_keyed ts) rows pairs) as Hf.
  { eapply Forall2_imp; [| exact Em]. intros x y Hx Hxy. apply (keyed_row_iff dv t ts) in Hxy; auto.
    now apply (proj1 (good_rows_iff _ _) Eg). }
  exists pairs. split; auto. f_equal. apply (dict_of_distinct pkey_eqb).
  apply no_equal_keys_iff. eapply Hnl; eauto. now apply pairs_keys.
Qed.

(** ** Copies *)

(** Tables as the constructor leaves them. *)
Definition table_ok (ts : tschema) (tb : otable) : Prop :=
  match tpk ts, tb with
  | [], OListed l => forall r, In r l -> List.length r = List.length (tdf ts)
  | _ :: _, OKeyed l => forall k r, In (k, r) l -> key_shape ts k /\ List.length r = List.length (tdf ts)
  | _, _ => False
  end.

Definition obj_ok (sch : schema) (d : obj) : Prop := forall t ts, In (t, ts) sch -> table_ok ts (d t).

Lemma fits_length : forall dv t ts x r, fits dv t ts x r -> List.length r = List.length (tdf ts).
Proof.
  intros dv t ts [l | l | v] r; simpl.
  - tauto.
  - intros [H ->]; auto.
  - intros [H ->]; auto.
Qed.

Lemma Forall2_In_r {A B} (P : A -> B -> Prop) : forall l m y, Forall2 P l m -> In y m -> exists x, In x l /\ P x y.
Proof.
  intros l m y H. induction H as [| x z l m Hx _ IH]; simpl; [tauto |]. intros [<- | Hin]; eauto.
  destruct (IH Hin) as (x' & A1 & A2). eauto.
Qed.

Lemma fits_keyed_shape : forall ts x k r, tpk ts <> [] -> fits_keyed ts x (k, r) ->
  key_shape ts k /\ List.length r = List.length (tdf ts).
Proof.
  intros ts x k r Hne (c & Hl & _ & Hk & Hr). cbn [fst snd] in *. rewrite app_length in Hl. split.
  - subst k. unfold packed, key_shape. pose proof (firstn_length (List.length (tpk ts)) c) as Hf.
    destruct (firstn (List.length (tpk ts)) c) as [| a [| b m]]; simpl in Hf |- *; lia.
  - subst r. rewrite skipn_length. lia.
Qed.

Lemma last_bind_In {K V} (eqb : K -> K -> bool) : forall (l : list (K * V)) k v,
  last_bind eqb l k = Some v -> exists k', eqb k' k = true /\ In (k', v) l.
Proof.
  induction l as [| [k0 v0] l IH]; intros k v H; simpl in H; [discriminate |].
  destruct (last_bind eqb l k) as [w |] eqn:E.
  - injection H as ->. destruct (IH _ _ E) as (k' & A & B). exists k'. simpl. auto.
  - destruct (eqb k0 k) eqn:Ek; [| discriminate]. injection H as ->. exists k0. simpl. auto.
Qed.

(** What the constructor builds is well formed, whatever it is given. *)
Theorem construct_ok : forall sch dv mode inputs d, wf_schema sch -> NoDup (map fst inputs) ->
  construct sch dv mode inputs = Some d -> obj_ok sch d.
Proof.
  intros sch dv mode inputs d Hwf Hn H t ts Hs.
  pose proof (construct_holds _ _ _ _ _ Hwf Hn H) as [Hh He].
  destruct (in_dec string_dec t (map fst inputs)) as [Hin | Hin].
  - apply in_map_iff in Hin as ([t' inp] & E & Hin). simpl in E. subst t'. specialize (Hh _ _ _ Hs Hin).
    assert (exists b, build_one sch dv (t, inp) = Some b) as [b Hb].
    { unfold construct in H. fold (build_one sch dv) in H.
      destruct (map_opt (build_one sch dv) inputs) as [built |] eqn:E; [| discriminate].
      apply (proj1 (map_opt_some (build_one sch dv) inputs)); eauto. }
    assert (good_input ts inp) as Hg.
    { apply (init_one_some dv t ts inp). { eapply wf_data_nodup; eauto. }
      unfold build_one in Hb. cbn [fst snd] in Hb. pose proof Hs as Hs'. apply schema_get in Hs'; [| apply Hwf].
      rewrite Hs' in Hb. destruct (init_one dv t ts inp); eauto. discriminate. }
    unfold table_ok, holds, good_input in *. destruct (tpk ts) as [| p pk] eqn:Ep.
    + destruct inp as [kx | rows]; destruct Hh as (l & -> & Hf); intros r Hr;
        destruct (Forall2_In_r _ _ _ _ Hf Hr) as (x & _ & Hx); now apply fits_length in Hx.
    + destruct inp as [kx | rows].
      * destruct Hh as (l & -> & Hf). intros k r Hr. destruct (Forall2_In_r _ _ _ _ Hf Hr) as ([k' x] & Hin' & E & Hx).
        simpl in E, Hx. subst k'. split; [eapply Hg; eauto | now apply fits_length in Hx].
      * destruct Hh as (l & pairs & -> & Hf & Hk & Hget & _). intros k r Hr.
        assert (dget pkey_eqb l k = Some r) as Hgk.
        { apply (In_dget pkey_eqb pkey_eqb_refl); auto. now apply no_equal_keys_iff. }
        rewrite Hget in Hgk. apply (last_bind_In pkey_eqb) in Hgk as (k' & Ek & Hin').
        destruct (Forall2_In_r _ _ _ _ Hf Hin') as (x & _ & Hx).
        apply fits_keyed_shape in Hx as [Hx1 Hx2]; [| congruence]. split; auto.
        apply pkey_eqb_iff in Ek. unfold key_shape in *. destruct k, k'; simpl in *; try discriminate; auto.
        injection Ek as Ek. apply (f_equal (@List.length value)) in Ek. rewrite !map_length in Ek. lia.
  - rewrite (He _ _ Hs Hin). unfold table_ok. destruct (tpk ts); intros; contradiction.
Qed.

Lemma combine_keys : forall (fs : list string) (r : row), List.length r = List.length fs ->
  map fst (combine fs r) = fs.
Proof.
  induction fs as [| f fs IH]; intros [| c r] H; simpl in *; try lia; auto. f_equal. apply IH. lia.
Qed.

Lemma fits_own_cells : forall dv t ts r r', NoDup (tdf ts) -> List.length r = List.length (tdf ts) ->
  fits dv t ts (RDict (combine (tdf ts) r)) r' -> r' = r.
Proof.
  intros dv t ts r r' Hn Hl (_ & Hl' & Hc). apply (row_ext (tdf ts)); auto. intros f Hf.
  specialize (Hc f Hf). unfold cell_at, given in Hc. rewrite Hc.
  rewrite (last_bind_distinct String.eqb String.eqb_sym string_eqb_trans).
  2:{ rewrite combine_keys by auto. now apply (keys_distinct_NoDup String.eqb String.eqb_eq). }
  destruct (dget String.eqb (combine (tdf ts) r) f) as [v |] eqn:E; auto. exfalso.
  rewrite <- (combine_keys (tdf ts) r Hl) in Hf. apply in_map_iff in Hf as ([f' v] & Ef & Hin). simpl in Ef. subst f'.
  pose proof (proj1 (dget_None String.eqb _ f) E f v Hin) as Hx. rewrite String.eqb_refl in Hx. discriminate.
Qed.

Lemma as_dict_names : forall sch d, map fst (as_dict sch d) = map fst sch.
Proof. intros. unfold as_dict. rewrite map_map. reflexivity. Qed.

Lemma as_dict_shape : forall ts (r : row) f v, In (f, v) (combine (tdf ts) r) -> In f (tdf ts).
Proof. intros ts r f v H. now apply in_combine_l in H. Qed.

(** [TicDat( **as_dict(dat))] is [dat]. *)
Theorem as_dict_round_trip : forall sch dv mode d, wf_schema sch -> obj_ok sch d ->
  exists e, construct sch dv mode (as_dict sch d) = Some e /\ forall t ts, In (t, ts) sch -> e t = d t.
Proof.
  intros sch dv mode d Hwf Hok.
  assert (acceptable sch (as_dict sch d)) as Ha.
  { intros t inp Hin. apply in_map_iff in Hin as ([t' ts] & E & Hin). injection E as <- <-. cbn [fst snd].
    exists ts. split; auto. specialize (Hok _ _ Hin). unfold table_ok, good_input in *. destruct (tpk ts) as [| p pk].
    - destruct (d t') as [l | l]; [contradiction |]. intros x Hx. apply in_map_iff in Hx as (r & <- & Hr). simpl.
      intros f v. apply as_dict_shape.
    - destruct (d t') as [l | l]; [| contradiction]. intros k x Hx. apply in_map_iff in Hx as ([k' r] & E & Hr).
      injection E as <- <-. split; [eapply Hok; eauto |]. simpl. intros f v. apply as_dict_shape. }
  assert (NoDup (map fst (as_dict sch d))) as Hn by (rewrite as_dict_names; apply Hwf).
  assert (exists e, construct sch dv mode (as_dict sch d) = Some e) as [e He].
  { destruct (String.eqb mode "assert") eqn:E.
    - apply String.eqb_eq in E. subst mode. apply construct_assert; auto. split; auto.
      intros t ts rows ks Hin Hs Hne. exfalso. apply in_map_iff in Hin as ([t' ts'] & E & Hin).
      cbn [fst snd] in E. injection E as -> E.
      assert (ts' = ts). { apply schema_get in Hin, Hs; try apply Hwf. congruence. } subst ts'.
      specialize (Hok _ _ Hs). unfold table_ok in Hok. destruct (d t), (tpk ts); try contradiction; try congruence.
    - apply String.eqb_neq in E. now apply construct_accepts. }
  exists e. split; auto. intros t ts Hs. apply construct_holds in He as [Hh _]; auto.
  assert (NoDup (tdf ts)) as Hd by (eapply wf_data_nodup; eauto).
  assert (exists inp, In (t, inp) (as_dict sch d) /\ inp = match d t with
      | OKeyed l => TDict (map (fun kr => (fst kr, RDict (combine (tdf ts) (snd kr)))) l)
      | OListed l => TRows (map (fun r => RDict (combine (tdf ts) r)) l) end) as (inp & Hin & Ei).
  { eexists. split; [| reflexivity]. unfold as_dict. apply in_map_iff. exists (t, ts). cbn [fst snd]. auto. }
  specialize (Hh _ _ _ Hs Hin). specialize (Hok _ _ Hs). unfold holds, table_ok in *. subst inp.
  destruct (tpk ts) as [| p pk].
  - destruct (d t) as [l | l]; [contradiction |]. destruct Hh as (m & -> & Hf). f_equal. clear Hin.
    revert m Hf. induction l as [| r l IH]; intros m Hf; inversion Hf as [| ? r' ? m' Hr Hf']; subst; auto.
    f_equal.
    + eapply fits_own_cells; eauto. apply Hok. simpl. auto.
    + apply IH; auto. intros. apply Hok. simpl. auto.
  - destruct (d t) as [l | l]; [| contradiction]. destruct Hh as (m & -> & Hf). f_equal. clear Hin.
    revert m Hf. induction l as [| [k r] l IH]; intros m Hf; inversion Hf as [| ? [k' r'] ? m' [Hk Hr] Hf']; subst; auto.
    cbn [fst snd] in Hk, Hr. subst k'. f_equal.
    + f_equal. eapply fits_own_cells; eauto. eapply Hok. simpl. eauto.
    + apply IH; auto. intros. apply (Hok k0 r0). simpl. auto.
Qed.

(** ** Comparison *)

(** What equality of datasets should mean, cell by cell, with Python's [==]. *)
Definition same_cell (a b : value) : Prop := a <> VNaN /\ b <> VNaN /\ canon a = canon b.

Lemma cell_neq_iff : forall a b, negb (cell_neq a b) = true <-> same_cell a b.
Proof.
  intros a b. unfold same_cell, cell_neq.
  assert (negb (negb (pyeq a b)) = true <-> canon a = canon b) as Hp.
  { rewrite negb_involutive. apply pyeq_iff. }
  destruct a, b; try (rewrite Hp); intuition (try discriminate; try congruence).
Qed.

Lemma same_row_iff : forall a b, List.length a = List.length b -> (same_row a b = true <-> Forall2 same_cell a b).
Proof.
  unfold same_row. induction a as [| x a IH]; intros [| y b] H; simpl in *; try lia.
  - split; auto.
  - rewrite andb_true_iff, cell_neq_iff, IH by lia. split.
    + intros [H1 H2]. now constructor.
    + inversion 1; auto.
Qed.

Lemma same_cell_sym : forall a b, same_cell a b -> same_cell b a.
Proof. unfold same_cell. intuition. Qed.
Lemma same_cell_trans : forall a b c, same_cell a b -> same_cell b c -> same_cell a c.
Proof. unfold same_cell. intuition congruence. Qed.

Lemma Forall2_sym {A} (P : A -> A -> Prop) : (forall a b, P a b -> P b a) -> forall l m, Forall2 P l m -> Forall2 P m l.
Proof. intros HP l m H. induction H; auto. Qed.
Lemma Forall2_trans {A} (P : A -> A -> Prop) : (forall a b c, P a b -> P b c -> P a c) ->
  forall l m n, Forall2 P l m -> Forall2 P m n -> Forall2 P l n.
Proof.
  intros HP l m n H. revert n. induction H; intros n H2; inversion H2; subst; auto. constructor; eauto.
Qed.

(** The keyed tables agree: same keys, and the same cells under each key. *)
Definition same_keyed (l m : list (pkey * row)) : Prop :=
  (forall k, (exists r, dget pkey_eqb l k = Some r) <-> (exists r, dget pkey_eqb m k = Some r)) /\
  (forall k r r', dget pkey_eqb l k = Some r -> dget pkey_eqb m k = Some r' -> Forall2 same_cell r r').

Lemma dget_some_iff : forall (m : list (pkey * row)) k,
  existsb (fun k' => pkey_eqb k' k) (map fst m) = true <-> exists r, dget pkey_eqb m k = Some r.
Proof.
  intros m k. rewrite existsb_exists. split.
  - intros (k' & Hin & E). apply in_map_iff in Hin as ([k1 r1] & <- & Hin). simpl in E.
    destruct (dget pkey_eqb m k) as [r |] eqn:Eg; eauto.
    pose proof (proj1 (dget_None pkey_eqb m k) Eg k1 r1 Hin). congruence.
  - intros [r H]. apply dget_In in H as (k' & E & Hin). exists k'. split; auto. now apply (in_map fst) in Hin.
Qed.

Lemma dget_keq : forall (m : list (pkey * row)) k k', pkey_eqb k k' = true -> dget pkey_eqb m k = dget pkey_eqb m k'.
Proof.
  induction m as [| [k0 r0] m IH]; intros k k' H; auto. simpl. rewrite (IH _ _ H).
  destruct (pkey_eqb k0 k) eqn:E1, (pkey_eqb k0 k') eqn:E2; auto.
  - rewrite (pkey_eqb_trans _ _ _ E1 H) in E2. discriminate.
  - rewrite pkey_eqb_sym in H. rewrite (pkey_eqb_trans _ _ _ E2 H) in E1. discriminate.
Qed.

Lemma same_table_keyed : forall ts l m, tpk ts <> [] -> table_ok ts (OKeyed l) -> table_ok ts (OKeyed m) ->
  no_equal_keys (map fst l) ->
  (same_table (OKeyed l) (OKeyed m) = true <-> same_keyed l m).
Proof.
  intros ts l m Hne Hl Hm Hk. unfold table_ok in *. destruct (tpk ts) as [| p pk]; [congruence |].
  apply no_equal_keys_iff in Hk.
  assert (forall k r, dget pkey_eqb l k = Some r -> List.length r = List.length (tdf ts)) as Ll.
  { intros k r H. apply dget_In in H as (k' & _ & Hin). eapply Hl; eauto. }
  assert (forall k r, dget pkey_eqb m k = Some r -> List.length r = List.length (tdf ts)) as Lm.
  { intros k r H. apply dget_In in H as (k' & _ & Hin). eapply Hm; eauto. }
  unfold same_table, same_keys, same_keyed. rewrite !andb_true_iff, !forallb_forall. split.
  - intros [[H1 H2] H3]. split.
    + intros k. rewrite <- !dget_some_iff. split; intros H.
      * apply existsb_exists in H as (k' & Hin & E). apply H1 in Hin.
        apply dget_some_iff in Hin as [r Hr]. apply dget_some_iff. exists r.
        now rewrite <- (dget_keq m _ _ E).
      * apply existsb_exists in H as (k' & Hin & E). apply H2 in Hin.
        apply dget_some_iff in Hin as [r Hr]. apply dget_some_iff. exists r.
        now rewrite <- (dget_keq l _ _ E).
    + intros k r r' Hr Hr'. pose proof (dget_In _ _ _ _ Hr) as (k' & E & Hin). specialize (H3 _ Hin).
      cbn [fst snd] in H3. rewrite (dget_keq m _ _ E), Hr' in H3. apply same_row_iff in H3; auto.
      rewrite (Ll _ _ Hr), (Lm _ _ Hr'). reflexivity.
  - intros [H1 H2]. repeat split.
    + intros k Hin. apply dget_some_iff. apply H1. apply dget_some_iff. apply existsb_exists. exists k.
      split; auto. apply pkey_eqb_refl.
    + intros k Hin. apply dget_some_iff. apply H1. apply dget_some_iff. apply existsb_exists. exists k.
      split; auto. apply pkey_eqb_refl.
    + intros [k r] Hin. cbn [fst snd].
      assert (dget pkey_eqb l k = Some r) as Hr by (apply (In_dget pkey_eqb pkey_eqb_refl); auto).
      destruct (proj1 (H1 k) (ex_intro _ r Hr)) as [r' Hr']. rewrite Hr'. apply same_row_iff; eauto.
      rewrite (Ll _ _ Hr), (Lm _ _ Hr'). reflexivity.
Qed.

Lemma same_keyed_sym : forall l m, same_keyed l m -> same_keyed m l.
Proof.
  intros l m [H1 H2]. split.
  - intros k. symmetry. apply H1.
  - intros k r r' Hr Hr'. apply (Forall2_sym same_cell same_cell_sym). eauto.
Qed.

Lemma same_keyed_trans : forall l m n, same_keyed l m -> same_keyed m n -> same_keyed l n.
Proof.
  intros l m n [H1 H2] [H3 H4]. split.
  - intros k. rewrite H1. apply H3.
  - intros k r r' Hr Hr'. destruct (proj1 (H1 k) (ex_intro _ r Hr)) as [s Hs].
    eapply (Forall2_trans same_cell same_cell_trans); eauto.
Qed.

(** List tables. *)
Definition same_listed (l m : list row) : Prop :=
  List.length l = List.length m /\ forall r, In r l -> exists r', In r' m /\ Forall2 same_cell r r'.

Lemma same_table_listed : forall ts l m, tpk ts = [] -> table_ok ts (OListed l) -> table_ok ts (OListed m) ->
  (same_table (OListed l) (OListed m) = true <-> same_listed l m).
Proof.
  intros ts l m E Hl Hm. unfold table_ok in *. rewrite E in *. unfold same_table, same_listed.
  rewrite andb_true_iff, Nat.eqb_eq, forallb_forall. split; intros [H1 H2]; split; auto; intros r Hr.
  - specialize (H2 r Hr). apply existsb_exists in H2 as (r' & Hin & Hs). exists r'. split; auto.
    apply same_row_iff; auto. rewrite (Hl _ Hr), (Hm _ Hin). reflexivity.
  - destruct (H2 r Hr) as (r' & Hin & Hs). apply existsb_exists. exists r'. split; auto.
    apply same_row_iff; auto. rewrite (Hl _ Hr), (Hm _ Hin). reflexivity.
Qed.

(** No two rows of the list are equal cell by cell. *)
Definition distinct_rows (l : list row) : Prop := NoDup (map (map canon) l).

Lemma same_cells_canon : forall r r', Forall2 same_cell r r' -> map canon r = map canon r'.
Proof. intros r r' H. induction H as [| a b l m Hab _ IH]; simpl; auto. f_equal; auto. apply Hab. Qed.
Lemma canon_same_cells : forall r r', map canon r = map canon r' -> Forall (fun v => v <> VNaN) r ->
  Forall (fun v => v <> VNaN) r' -> Forall2 same_cell r r'.
Proof.
  induction r as [| a r IH]; intros [| b r'] H Hr Hr'; simpl in H; try discriminate; constructor.
  - injection H as H1 H2. inversion Hr; inversion Hr'; subst. repeat split; auto.
  - injection H as H1 H2. inversion Hr; inversion Hr'; subst. auto.
Qed.
Lemma same_cells_not_nan : forall r r', Forall2 same_cell r r' ->
  Forall (fun v => v <> VNaN) r /\ Forall (fun v => v <> VNaN) r'.
Proof.
  intros r r' H. induction H as [| a b l m (A & B & _) _ [IH1 IH2]]; auto.
Qed.

Lemma same_listed_sym : forall l m, distinct_rows l -> same_listed l m -> same_listed m l.
Proof.
  unfold distinct_rows, same_listed. unfold row. intros l m Hd [H1 H2]. split; auto. intros r' Hr'.
  assert (incl (map (map canon) l) (map (map canon) m)) as Hincl.
  { intros c Hc. apply in_map_iff in Hc as (r & <- & Hr). destruct (H2 r Hr) as (s & Hs & Hsame).
    apply same_cells_canon in Hsame. rewrite Hsame. now apply in_map. }
  assert (incl (map (map canon) m) (map (map canon) l)) as Hincl'.
  { apply NoDup_length_incl; auto. rewrite !map_length. unfold row in *. lia. }
  specialize (Hincl' (map canon r') (in_map _ _ _ Hr')). apply in_map_iff in Hincl' as (r & E & Hr).
  exists r. split; auto.
  assert (NoDup (map (map canon) m)) as Hm.
  { apply (NoDup_incl_NoDup (l := map (map canon) l)); auto. rewrite !map_length. unfold row in *. lia. }
  destruct (H2 r Hr) as (s & Hs & Hsame). pose proof (same_cells_canon _ _ Hsame) as E2.
  assert (s = r') as ->.
  { assert (map canon s = map canon r') as E3 by congruence.
    clear - Hm Hs Hr' E3. induction m as [| x m IH]; simpl in *; [contradiction |].
    inversion Hm as [| ? ? N1 N2]; subst. destruct Hs as [-> | Hs], Hr' as [-> | Hr']; auto.
    - exfalso. apply N1. rewrite E3. now apply in_map.
    - exfalso. apply N1. rewrite <- E3. now apply in_map. }
  apply (Forall2_sym same_cell same_cell_sym). auto.
Qed.

Lemma same_listed_trans : forall l m n, same_listed l m -> same_listed m n -> same_listed l n.
Proof.
  intros l m n [H1 H2] [H3 H4]. split; [congruence |]. intros r Hr. destruct (H2 r Hr) as (s & Hs & E).
  destruct (H4 s Hs) as (u & Hu & E'). exists u. split; auto. eapply (Forall2_trans same_cell same_cell_trans); eauto.
Qed.

(** Objects with unique keys, and no equal rows in tables without a key. *)
Definition obj_distinct (sch : schema) (d : obj) : Prop := forall t ts, In (t, ts) sch ->
  match d t with OKeyed l => no_equal_keys (map fst l) | OListed l => distinct_rows l end.
Definition obj_keys (sch : schema) (d : obj) : Prop := forall t ts, In (t, ts) sch ->
  match d t with OKeyed l => no_equal_keys (map fst l) | OListed _ => True end.

(** The keyed and list tables of two objects agree. *)
Definition same_objects (sch : schema) (d e : obj) : Prop := forall t ts, In (t, ts) sch ->
  match d t, e t with
  | OKeyed l, OKeyed m => same_keyed l m
  | OListed l, OListed m => same_listed l m
  | _, _ => False
  end.

Theorem same_data_iff : forall sch d e, obj_ok sch d -> obj_ok sch e -> obj_keys sch d ->
  (same_data sch d e = true <-> same_objects sch d e).
Proof.
  intros sch d e Hd He Hk. unfold same_data, same_objects. rewrite forallb_forall. split.
  - intros H t ts Hs. pose proof (H _ Hs) as Ht. cbn [fst] in Ht. specialize (Hd _ _ Hs). specialize (He _ _ Hs).
    specialize (Hk _ _ Hs). destruct (d t) as [l | l] eqn:E1, (e t) as [m | m] eqn:E2; try discriminate.
    + eapply same_table_keyed; eauto. intros Hc. unfold table_ok in Hd. now rewrite Hc in Hd.
    + eapply same_table_listed; eauto. unfold table_ok in Hd. destruct (tpk ts); auto. contradiction.
  - intros H [t ts] Hs. cbn [fst]. specialize (H _ _ Hs). specialize (Hd _ _ Hs). specialize (He _ _ Hs).
    specialize (Hk _ _ Hs). destruct (d t) as [l | l] eqn:E1, (e t) as [m | m] eqn:E2; try contradiction.
    + eapply same_table_keyed; eauto. intros Hc. unfold table_ok in Hd. now rewrite Hc in Hd.
    + eapply same_table_listed; eauto. unfold table_ok in Hd. destruct (tpk ts); auto. contradiction.
Qed.

Lemma distinct_keys : forall sch d, obj_distinct sch d -> obj_keys sch d.
Proof. intros sch d H t ts Hs. specialize (H _ _ Hs). destruct (d t); auto. Qed.

Theorem same_data_sym : forall sch d e, obj_ok sch d -> obj_ok sch e -> obj_distinct sch d -> obj_distinct sch e ->
  same_data sch d e = same_data sch e d.
Proof.
  assert (forall sch d e, obj_ok sch d -> obj_ok sch e -> obj_distinct sch d -> obj_distinct sch e ->
    same_data sch d e = true -> same_data sch e d = true) as H1.
  { intros sch d e Hd He Dd De H. apply same_data_iff in H; auto; [| now apply distinct_keys].
    apply same_data_iff; auto; [now apply distinct_keys |]. intros t ts Hs. specialize (H _ _ Hs).
    specialize (Dd _ _ Hs). destruct (d t), (e t); auto.
    - now apply same_keyed_sym.
    - now apply same_listed_sym. }
  intros sch d e Hd He Dd De. destruct (same_data sch d e) eqn:E1, (same_data sch e d) eqn:E2; auto.
  - apply H1 in E1; auto. congruence.
  - apply H1 in E2; auto. congruence.
Qed.

Theorem same_data_trans : forall sch d e g, obj_ok sch d -> obj_ok sch e -> obj_ok sch g ->
  obj_keys sch d -> obj_keys sch e ->
  same_data sch d e = true -> same_data sch e g = true -> same_data sch d g = true.
Proof.
  intros sch d e g Hd He Hg Kd Ke H1 H2. apply same_data_iff in H1, H2; auto. apply same_data_iff; auto.
  intros t ts Hs. specialize (H1 _ _ Hs). specialize (H2 _ _ Hs). destruct (d t), (e t), (g t); try contradiction.
  - eapply same_keyed_trans; eauto.
  - eapply same_listed_trans; eauto.
Qed.

Definition no_nan (sch : schema) (d : obj) : Prop := forall t ts, In (t, ts) sch ->
  match d t with
  | OKeyed l => forall k r, In (k, r) l -> ~ In VNaN r
  | OListed l => forall r, In r l -> ~ In VNaN r
  end.

Lemma same_cells_refl : forall r, ~ In VNaN r <-> Forall2 same_cell r r.
Proof.
  induction r as [| a r IH]; simpl.
  - split; auto.
  - split.
    + intros H. constructor; [| apply IH; tauto]. assert (a <> VNaN) by (intros ->; tauto). repeat split; auto.
    + intros H. inversion H as [| ? ? ? ? (A & _) B]; subst. apply IH in B. intros [E | Hin]; auto.
Qed.

(** With unique keys, an object compares equal to itself iff it holds no NaN. *)
Theorem same_data_refl : forall sch d, obj_ok sch d -> obj_distinct sch d ->
  (same_data sch d d = true <-> no_nan sch d).
Proof.
  intros sch d Hd Hk. rewrite same_data_iff by (auto using distinct_keys). unfold same_objects, no_nan. split.
  - intros H t ts Hs. specialize (H _ _ Hs). specialize (Hk _ _ Hs). destruct (d t) as [l | l].
    + intros k r Hin. apply same_cells_refl. destruct H as [_ H].
      assert (dget pkey_eqb l k = Some r). { apply (In_dget pkey_eqb pkey_eqb_refl); auto. now apply no_equal_keys_iff. }
      eauto.
    + intros r Hin. destruct H as [_ H]. destruct (H r Hin) as (r' & _ & Hr). apply same_cells_not_nan in Hr as [Hr _].
      rewrite Forall_forall in Hr. intros Hc. now apply Hr in Hc.
  - intros H t ts Hs. specialize (H _ _ Hs). destruct (d t) as [l | l].
    + split; [tauto |]. intros k r r' Hr Hr'. rewrite Hr in Hr'. injection Hr' as <-. apply same_cells_refl.
      apply dget_In in Hr as (k' & _ & Hin). eauto.
    + split; auto. intros r Hin. exists r. split; auto. apply same_cells_refl. auto.
Qed.
