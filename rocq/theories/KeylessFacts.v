(** * Facts about rows with their keys inside. *)
From Coq Require Import ZArith Bool List String Arith Lia Permutation.
From Verif Require Import PyVal PyValFacts PyDict PyDictFacts ListFacts Data FindTypes FindTypesFacts FK FKFacts
  GraphFacts Obj ObjFacts ObjMore Keyless.
Import ListNotations.
Local Open Scope string_scope.
Local Open Scope list_scope.

(** The constructor's arguments made of such rows. *)
Definition as_rows (l : list (string * list (list (string * value)))) : list (string * tablein) :=
  map (fun tr => (fst tr, TRows (map RDict (snd tr)))) l.

(** Keys of one field are not tuples. *)
Definition scalar_keys (sch : schema) (d : obj) : Prop := forall t ts, In (t, ts) sch ->
  match d t with OKeyed l => forall v r, ~ In (KTup [v], r) l | OListed _ => True end.

(** What a row dict says: the fields of the table and no others, each with its cell. *)
Definition tells (ts : tschema) (c : list (string * value)) (key : list value) (r : row) : Prop :=
  NoDup (map fst c) /\ (forall f, In f (map fst c) <-> In f (tpk ts ++ tdf ts)) /\
  (forall i f, nth_error (tpk ts) i = Some f -> dget String.eqb c f = nth_error key i) /\
  (forall i f, nth_error (tdf ts) i = Some f -> dget String.eqb c f = nth_error r i).

Lemma get_combine : forall (fs : list string) (r : list value) i f, NoDup fs -> List.length r = List.length fs ->
  nth_error fs i = Some f -> dget String.eqb (combine fs r) f = nth_error r i.
Proof.
  induction fs as [| g fs IH]; intros [| c r] i f Hn Hl H; simpl in *; try lia.
  - destruct i; discriminate.
  - inversion Hn as [| ? ? Hg Hn']; subst. destruct i as [| i]; simpl in H.
    + injection H as <-. now rewrite String.eqb_refl.
    + destruct (String.eqb g f) eqn:E.
      * apply String.eqb_eq in E. subst. exfalso. apply Hg. eapply nth_error_In; eauto.
      * simpl. apply IH; auto.
Qed.

Lemma get_combine_none : forall (fs : list string) (r : list value) f, ~ In f fs -> dget String.eqb (combine fs r) f = None.
Proof.
  intros fs r f H. apply (dget_None String.eqb). intros g v Hin. apply in_combine_l in Hin.
  apply String.eqb_neq. congruence.
Qed.

Lemma map_get_combine : forall (fs : list string) (r : list value) d, NoDup fs -> List.length r = List.length fs ->
  map (fun f => dget_or String.eqb (combine fs r) f d) fs = r.
Proof.
  intros fs r d Hn Hl. apply nth_error_ext. intros i. rewrite nth_error_map.
  destruct (nth_error fs i) as [f |] eqn:E; simpl.
  - unfold dget_or. rewrite (get_combine _ _ _ _ Hn Hl E). destruct (nth_error r i) eqn:Er; auto.
    exfalso. apply nth_error_None in Er. assert (i < List.length fs) by (apply nth_error_Some; congruence). lia.
  - symmetry. apply nth_error_None. apply nth_error_None in E. lia.
Qed.

Section Row.
  Variable ts : tschema.
  Hypothesis Hnd : NoDup (tpk ts ++ tdf ts).
  Variables (key : list value) (r : row).
  Hypothesis Hk : List.length key = List.length (tpk ts).
  Hypothesis Hr : List.length r = List.length (tdf ts).

  Let c := dupdate String.eqb (combine (tdf ts) r) (combine (tpk ts) key).

  Lemma nd_pk : NoDup (tpk ts).
  Proof. now apply NoDup_app_l in Hnd. Qed.
  Lemma nd_df : NoDup (tdf ts).
  Proof. now apply NoDup_app_r in Hnd. Qed.
  Lemma pk_not_df : forall f, In f (tpk ts) -> ~ In f (tdf ts).
  Proof. intros f Hp Hd. eapply NoDup_app_disj; eauto. Qed.

  Lemma c_get : forall f, dget String.eqb c f =
    match dget String.eqb (combine (tpk ts) key) f with Some v => Some v | None => dget String.eqb (combine (tdf ts) r) f end.
  Proof.
    intros f. unfold c. rewrite (dget_dupdate String.eqb String.eqb_refl String.eqb_sym string_eqb_trans).
    rewrite (last_bind_distinct String.eqb String.eqb_sym string_eqb_trans); auto.
    rewrite combine_keys by auto. apply (keys_distinct_NoDup String.eqb String.eqb_eq). exact nd_pk.
  Qed.

  Lemma c_pk : forall i f, nth_error (tpk ts) i = Some f -> dget String.eqb c f = nth_error key i.
  Proof.
    intros i f H. rewrite c_get, (get_combine _ _ _ _ nd_pk Hk H). destruct (nth_error key i) eqn:E; auto.
    exfalso. apply nth_error_None in E. assert (i < List.length (tpk ts)) by (apply nth_error_Some; congruence). lia.
  Qed.

  Lemma c_df : forall i f, nth_error (tdf ts) i = Some f -> dget String.eqb c f = nth_error r i.
  Proof.
    intros i f H. rewrite c_get, get_combine_none.
    - now apply get_combine; [apply nd_df | |].
    - intros Hp. apply (pk_not_df f Hp). eapply nth_error_In; eauto.
  Qed.

  Lemma c_keys : NoDup (map fst c) /\ forall f, In f (map fst c) <-> In f (tpk ts ++ tdf ts).
  Proof.
    split.
    - apply (keys_distinct_NoDup String.eqb String.eqb_eq). unfold c. apply (keys_distinct_dupdate String.eqb).
      rewrite combine_keys by auto. apply (keys_distinct_NoDup String.eqb String.eqb_eq). apply nd_df.
    - intros f. assert (In f (map fst c) <-> dget String.eqb c f <> None) as ->.
      { rewrite in_map_iff. split.
        - intros ([g v] & E & Hin) Hx. simpl in E. subst g.
          pose proof (proj1 (dget_None String.eqb _ f) Hx f v Hin) as Hy. now rewrite String.eqb_refl in Hy.
        - intros H. destruct (dget String.eqb c f) as [v |] eqn:E; [| congruence].
          apply dget_In in E as (g & Eg & Hin). apply String.eqb_eq in Eg. subst g. exists (f, v). auto. }
      rewrite in_app_iff. split.
      + intros H. destruct (in_dec string_dec f (tpk ts)) as [? | Hp]; auto.
        destruct (in_dec string_dec f (tdf ts)) as [? | Hd]; auto. exfalso. apply H.
        rewrite c_get, !get_combine_none; auto.
      + intros [H | H]; apply In_nth_error in H as [i H].
        * rewrite (c_pk i f H). apply nth_error_Some. rewrite Hk. apply nth_error_Some. congruence.
        * rewrite (c_df i f H). apply nth_error_Some. rewrite Hr. apply nth_error_Some. congruence.
  Qed.

  Lemma c_tells : tells ts c key r.
  Proof. destruct c_keys as [A B]. repeat split; auto; try apply B; [apply c_pk | apply c_df]. Qed.

  Lemma c_cells : map (fun f => dget_or String.eqb c f (VNum (of_int 0))) (tpk ts ++ tdf ts) = key ++ r.
  Proof.
    rewrite map_app. f_equal; apply nth_error_ext; intros i; rewrite nth_error_map.
    - destruct (nth_error (tpk ts) i) as [f |] eqn:E; simpl.
      + unfold dget_or. rewrite (c_pk i f E). destruct (nth_error key i) eqn:Ek; auto. exfalso.
        apply nth_error_None in Ek. assert (i < List.length (tpk ts)) by (apply nth_error_Some; congruence). lia.
      + symmetry. apply nth_error_None. apply nth_error_None in E. lia.
    - destruct (nth_error (tdf ts) i) as [f |] eqn:E; simpl.
      + unfold dget_or. rewrite (c_df i f E). destruct (nth_error r i) eqn:Ek; auto. exfalso.
        apply nth_error_None in Ek. assert (i < List.length (tdf ts)) by (apply nth_error_Some; congruence). lia.
      + symmetry. apply nth_error_None. apply nth_error_None in E. lia.
  Qed.
End Row.

Lemma key_parts_length : forall ts k, key_shape ts k -> List.length (key_parts k) = List.length (tpk ts).
Proof. intros ts [v | l]; simpl; auto. Qed.

(** Every row is told, in the order of the table. *)
Theorem keyless_tells : forall sch d t ts, wf_schema sch -> obj_ok sch d -> In (t, ts) sch ->
  exists rows, In (t, rows) (keyless sch d) /\
    match d t with
    | OKeyed l => Forall2 (fun kr c => tells ts c (match fst kr with KAtom v => [v] | KTup vs => vs end) (snd kr)) l rows
    | OListed l => Forall2 (fun r c => tells ts c [] r) l rows
    end.
Proof.
  intros sch d t ts Hwf Hok Hs. exists (keyless_rows ts (d t)). split.
  - unfold keyless. apply in_map_iff. exists (t, ts). auto.
  - assert (NoDup (tpk ts ++ tdf ts)) as Hnd by (eapply Hwf; eauto). specialize (Hok _ _ Hs). unfold table_ok in Hok.
    destruct (d t) as [l | l]; simpl.
    + destruct (tpk ts) as [| p pk] eqn:Ep; [contradiction |]. rewrite <- Ep in *.
      induction l as [| [k r] l IH]; simpl; constructor.
      * destruct (Hok k r) as [Hk Hr]; [now left |]. cbn [fst snd].
        apply (c_tells ts Hnd (key_parts k) r (key_parts_length ts k Hk) Hr).
      * apply IH. intros. apply Hok. now right.
    + destruct (tpk ts) as [| p pk] eqn:Ep; [| contradiction].
      induction l as [| r l IH]; simpl; constructor; [| apply IH; intros; apply Hok; now right].
      assert (List.length r = List.length (tdf ts)) as Hr by (apply Hok; now left). unfold tells. rewrite Ep. cbn [app] in *.
      rewrite combine_keys by auto. repeat split; auto.
      * intros i f H. destruct i; discriminate.
      * intros i f H. now apply get_combine.
Qed.

(** ** Building from such rows *)

Lemma keyed_row_back : forall dv t ts k r, NoDup (tpk ts ++ tdf ts) -> tpk ts <> [] -> key_shape ts k -> (forall v, k <> KTup [v]) ->
  List.length r = List.length (tdf ts) ->
  keyed_row dv t ts (RDict (dupdate String.eqb (combine (tdf ts) r) (combine (tpk ts) (key_parts k)))) = Some (k, r).
Proof.
  intros dv t ts k r Hnd Hne Hk Hks Hr. pose proof (key_parts_length ts k Hk) as Hl.
  unfold keyed_row, handle_row_dict. rewrite (c_cells ts Hnd (key_parts k) r Hl Hr).
  rewrite <- Hl, firstn_app, Nat.sub_diag, firstn_all, firstn_O, app_nil_r.
  rewrite skipn_app, skipn_all, Nat.sub_diag. cbn [skipn app]. rewrite row_factory_seq by auto. simpl. f_equal. f_equal.
  destruct k as [v | l]; simpl in *; auto. destruct l as [| v [| w l]]; simpl; auto.
  now destruct (Hks v).
Qed.

Lemma shape_back : forall ts k r, NoDup (tpk ts ++ tdf ts) -> key_shape ts k -> List.length r = List.length (tdf ts) ->
  has_shape (tpk ts ++ tdf ts) (RDict (dupdate String.eqb (combine (tdf ts) r) (combine (tpk ts) (key_parts k)))).
Proof.
  intros ts k r Hnd Hk Hr f v Hin. apply (c_keys ts Hnd (key_parts k) r (key_parts_length ts k Hk) Hr).
  apply in_map_iff. exists (f, v). auto.
Qed.

Lemma map_opt_map {A B C} (g : B -> option C) (h : A -> B) (u : A -> C) : forall l,
  (forall x, In x l -> g (h x) = Some (u x)) -> map_opt g (map h l) = Some (map u l).
Proof.
  induction l as [| x l IH]; intros H; simpl; auto. rewrite (H x) by (now left). rewrite IH; auto. intros. apply H. now right.
Qed.

Lemma init_back : forall dv t ts tb, NoDup (tpk ts ++ tdf ts) -> table_ok ts tb ->
  match tb with OKeyed l => no_equal_keys (map fst l) /\ forall v r, ~ In (KTup [v], r) l | OListed _ => True end ->
  init_one dv t ts (TRows (map RDict (keyless_rows ts tb))) = Some tb.
Proof.
  intros dv t ts tb Hnd Hok Hk. unfold table_ok in Hok. unfold init_one.
  destruct (tpk ts) as [| p pk] eqn:Ep.
  - destruct tb as [l | l]; [contradiction |]. simpl. rewrite map_map.
    assert (NoDup (tdf ts)) as Hd by auto.
    replace (good_rows (tdf ts) (map (fun x => RDict (combine (tdf ts) x)) l)) with true.
    2:{ symmetry. apply good_rows_iff. intros x Hx. apply in_map_iff in Hx as (r & <- & _). simpl. intros f v. apply as_dict_shape. }
    rewrite (map_opt_map (row_factory dv t ts) (fun x => RDict (combine (tdf ts) x)) (fun x => x)).
    + simpl. now rewrite map_id.
    + intros r Hr. assert (has_shape (tdf ts) (RDict (combine (tdf ts) r))) as Hsh by (simpl; intros f v; apply as_dict_shape).
      destruct (shape_fits dv t ts _ Hd Hsh) as [r' Hr']. rewrite Hr'. f_equal.
      apply row_factory_iff in Hr'; auto. eapply fits_own_cells; eauto.
  - rewrite <- Ep in *. destruct tb as [l | l]; [| contradiction]. destruct Hk as [Hne Hks]. simpl. rewrite map_map.
    assert (tpk ts <> []) as Hpk by congruence.
    match goal with |- (if good_rows ?a ?b then _ else _) = _ => replace (good_rows a b) with true end.
    2:{ symmetry. apply good_rows_iff. intros x Hx. apply in_map_iff in Hx as ([k r] & <- & Hin). apply Hok in Hin as [? ?].
        now apply shape_back. }
    rewrite (map_opt_map (keyed_row dv t ts) _ (fun x => x)).
    + simpl. rewrite map_id. f_equal. f_equal. apply dict_of_distinct. now apply no_equal_keys_iff.
    + intros [k r] Hin. cbn [fst snd]. destruct (Hok _ _ Hin) as [? ?]. apply keyed_row_back; auto. intros v ->. eapply Hks; eauto.
Qed.

Lemma keyless_length : forall ts tb, List.length (keyless_rows ts tb) = out_length tb.
Proof. intros ts [l | l]; simpl; apply map_length. Qed.

(** Building from the rows gives the object back. *)
Theorem keyless_back : forall sch dv mode d, wf_schema sch -> obj_ok sch d -> obj_keys sch d -> scalar_keys sch d ->
  exists e, construct sch dv mode (as_rows (keyless sch d)) = Some e /\ forall t ts, In (t, ts) sch -> e t = d t.
Proof.
  intros sch dv mode d Hwf Hok Hk Hs. unfold construct, as_rows, keyless. rewrite map_map. cbn [fst snd].
  rewrite (map_opt_map _ _ (fun tts => (fst tts, d (fst tts)))).
  2:{ intros [t ts] Hin. cbn [fst snd]. pose proof Hin as Hg. apply schema_get in Hg; [| apply Hwf]. rewrite Hg.
      rewrite init_back; auto.
      - eapply Hwf; eauto.
      - specialize (Hk _ _ Hin). specialize (Hs _ _ Hin). destruct (d t); auto. }
  cbv zeta.
  assert (forall t ts, In (t, ts) sch ->
            dget String.eqb (map (fun tts : string * tschema => (fst tts, d (fst tts))) sch) t = Some (d t)) as Hget.
  { intros t ts Hin. destruct Hwf as [Hn _]. revert Hin Hn. clear. induction sch as [| [t' ts'] sch IH]; simpl; [tauto |]. intros Hin Hn.
    inversion Hn as [| ? ? Ha Hb]; subst. destruct Hin as [E | Hin].
    - injection E as <- <-. now rewrite String.eqb_refl.
    - destruct (String.eqb t' t) eqn:E; [| now apply IH]. apply String.eqb_eq in E. subst. reflexivity. }
  match goal with |- context [if ?b then None else _] => assert (b = false) as -> end.
  { apply andb_false_intro2. apply Bool.not_true_iff_false. intros H. apply existsb_exists in H as ([t inp] & Hin & H).
    apply in_map_iff in Hin as ([t' ts] & E & Hin). injection E as <- <-. cbn [fst snd] in H. rewrite (Hget _ _ Hin) in H.
    simpl in H. rewrite map_length, keyless_length, Nat.ltb_irrefl in H. discriminate. }
  eexists. split; [reflexivity |]. intros t ts Hin. cbv beta. now rewrite (Hget _ _ Hin).
Qed.
