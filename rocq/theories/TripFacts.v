(** * Reading back what was written: lemmas for every file format. *)
From Coq Require Import ZArith Bool List String Arith Lia Permutation.
From Verif Require Import PyVal PyValFacts PyDict PyDictFacts ListFacts Data FindTypes FindTypesFacts FK Obj ObjFacts ObjMore
  Factory FactoryFacts InfIO Params Names NamesFacts Utils Json ObjRows JsonFacts.
Import ListNotations.
Local Open Scope string_scope.
Local Open Scope list_scope.

(** The constructor, table by table. *)
Theorem construct_tables : forall sch dv mode (e : obj) inputs, wf_schema sch -> NoDup (map fst inputs) ->
  (forall t inp, In (t, inp) inputs -> exists ts, In (t, ts) sch /\ init_one dv t ts inp = Some (e t) /\ in_length inp <= out_length (e t)) ->
  (forall t ts, In (t, ts) sch -> ~ In t (map fst inputs) -> e t = no_rows ts) ->
  exists e', construct sch dv mode inputs = Some e' /\ forall t ts, In (t, ts) sch -> e' t = e t.
Proof.
  intros sch dv mode e inputs Hwf Hn Hin Hout.
  assert (forall t inp, In (t, inp) inputs -> build_one sch dv (t, inp) = Some (t, e t)) as Hb.
  { intros t inp Hi. destruct (Hin _ _ Hi) as (ts & Hs & Hf & _). unfold build_one. cbn [fst snd].
    pose proof (proj2 (schema_get sch t ts (proj1 Hwf)) Hs) as ->. now rewrite Hf. }
  assert (exists built, map_opt (build_one sch dv) inputs = Some built) as [built E].
  { apply map_opt_some. intros [t inp] Hi. eauto. }
  assert (forall t inp, In (t, inp) inputs -> dget String.eqb built t = Some (e t)) as Hget.
  { intros t inp Hi. destruct (built_get _ _ _ _ _ _ Hn E Hi) as (ts & tb & A & B & C). rewrite C.
    specialize (Hb _ _ Hi). unfold build_one in Hb. cbn [fst snd] in Hb. rewrite A, B in Hb. now injection Hb as ->. }
  unfold construct. fold (build_one sch dv). rewrite E. cbv zeta.
  assert (forall b, (b && existsb (fun ti => Nat.ltb (out_length match dget String.eqb built (fst ti) with
                        | Some tb => tb
                        | None => match dget String.eqb sch (fst ti) with Some ts => no_rows ts | None => OListed [] end
                        end) (in_length (snd ti))) inputs) = false) as ->.
  { intros b. apply andb_false_intro2. apply not_true_is_false. intros Hx. apply existsb_exists in Hx as ([t inp] & Hi & Hl).
    cbn [fst snd] in Hl. rewrite (Hget _ _ Hi) in Hl. apply Nat.ltb_lt in Hl.
    destruct (Hin _ _ Hi) as (ts & _ & _ & Hlen). lia. }
  eexists. split; [reflexivity |]. intros t ts Hs. cbv beta.
  destruct (in_dec string_dec t (map fst inputs)) as [Hi | Hi].
  - apply in_map_iff in Hi as ([t' inp] & <- & Hi). cbn [fst]. now rewrite (Hget _ _ Hi).
  - rewrite (built_none _ _ _ _ _ E Hi). pose proof (proj2 (schema_get sch t ts (proj1 Hwf)) Hs) as ->.
    symmetry. now apply Hout.
Qed.

(** The same rows in another order. *)
Definition reordered (a b : otable) : Prop :=
  match a, b with
  | OKeyed l, OKeyed m => Permutation l m
  | OListed l, OListed m => Permutation l m
  | _, _ => False
  end.

Lemma reordered_sym : forall a b, reordered a b -> reordered b a.
Proof. intros [l | l] [m | m]; simpl; auto; now symmetry. Qed.

Lemma full_length : forall ts tb r, table_ok ts tb -> In r (full_rows tb) -> List.length r = List.length (tfields ts).
Proof. exact JsonFacts.full_length. Qed.

Section Trip.
  Variable date_of : value -> option Z.
  Variable float_of : value -> option value.
  Variable f : factory.
  (** [trip t ts x v w]: the cell [v] in field [x] of the table is written, and read
      as [w]. *)
  Variable trip : string -> tschema -> string -> value -> value -> Prop.

  Definition cells_kept (d : obj) : Prop := forall t ts r x v, In (t, ts) (plain_schema f) ->
    (has_params f = true -> t <> "parameters") -> In r (full_rows (d t)) -> In (x, v) (combine (tfields ts) r) ->
    trip t ts x v v.

  Definition params_kept (d : obj) : Prop := has_params f = true ->
    forall ts, In ("parameters", ts) (plain_schema f) -> exists p q l, ts = mkT [p] [q] /\ d "parameters" = OKeyed l /\
      forall k r, In (k, r) l -> exists a v w, k = KAtom a /\ r = [v] /\
        trip "parameters" ts p a a /\ trip "parameters" ts q v w /\ param_cell date_of float_of f a w = v.

  Lemma adjust_reordered : forall (d e : obj) t, reordered (e t) (d t) ->
    reordered (adjust_params date_of float_of f e t) (adjust_params date_of float_of f d t).
  Proof.
    intros d e t H. unfold adjust_params. destruct (String.eqb t "parameters" && has_params f); auto.
    destruct (e t), (d t); simpl in *; auto. now apply Permutation_map.
  Qed.

  (** The object before the parameters are adjusted. *)
  Theorem before_adjustment : forall d, decl_ok (f_decl f) = true ->
    obj_ok (plain_schema f) d -> obj_keys (plain_schema f) d -> proper_keys (plain_schema f) d ->
    cells_kept d -> params_kept d ->
    exists d1, obj_ok (plain_schema f) d1 /\ obj_keys (plain_schema f) d1 /\ proper_keys (plain_schema f) d1 /\
      (forall t ts, In (t, ts) (plain_schema f) ->
         Forall2 (fun r r' => Forall2 (fun fx v' => trip t ts (fst fx) (snd fx) v') (combine (tfields ts) r) r')
           (full_rows (d t)) (full_rows (d1 t))) /\
      (forall t ts, In (t, ts) (plain_schema f) -> adjust_params date_of float_of f d1 t = d t).
  Proof.
    intros d Hd Hok Hks Hpr Hcb Hpb. pose proof (plain_wf f Hd) as Hwf.
    assert (forall t ts, In (t, ts) (plain_schema f) -> (has_params f = true -> t <> "parameters") ->
       Forall2 (fun r r' => Forall2 (fun fx v' => trip t ts (fst fx) (snd fx) v') (combine (tfields ts) r) r')
           (full_rows (d t)) (full_rows (d t))) as Hplain.
    { intros t ts Hin Hno.
      assert (forall r, In r (full_rows (d t)) -> Forall2 (fun fx v' => trip t ts (fst fx) (snd fx) v') (combine (tfields ts) r) r) as H.
      { intros r Hr. pose proof (full_length ts (d t) r (Hok _ _ Hin) Hr) as L.
        pose proof (fun x v => Hcb t ts r x v Hin Hno Hr) as H. revert H L. generalize (tfields ts). clear Hr.
        induction r as [| v r IH]; intros [| x fs] H L; try discriminate; simpl; constructor.
        - apply H. simpl. auto.
        - apply IH; [| now injection L]. intros. apply H. simpl. auto. }
      clear - H. induction (full_rows (d t)) as [| r l IH]; constructor.
      - apply H. simpl. auto.
      - apply IH. intros. apply H. simpl. auto. }
    destruct (has_params f && mem_str "parameters" (map fst (plain_schema f))) eqn:Ep.
    - apply andb_true_iff in Ep as [Hp Hm]. apply mem_str_iff in Hm. apply in_map_iff in Hm as ([t ts] & E & Hin).
      cbn [fst] in E. subst t. destruct (Hpb Hp _ Hin) as (p & q & l & Ets & Ed & Hl).
      assert (exists l1 : list (pkey * row), Forall2 (fun kr kr1 : pkey * row => exists a v w, kr = (KAtom a, [v]) /\ kr1 = (KAtom a, [w]) /\
                trip "parameters" ts p a a /\ trip "parameters" ts q v w /\ param_cell date_of float_of f a w = v) l l1) as [l1 Hl1].
      { clear - Hl. induction l as [| [k r] l IH]; [exists []; constructor |]. destruct IH as [l1 H1]. { intros; apply Hl; simpl; auto. }
        destruct (Hl k r) as (a & v & w & -> & -> & H); [simpl; auto |]. exists ((KAtom a, [w]) :: l1). constructor; auto. exists a, v, w. auto. }
      set (d1 := fun t => if String.eqb t "parameters" then OKeyed l1 else d t).
      assert (forall t, t <> "parameters" -> d1 t = d t) as D1.
      { intros t Ht. unfold d1. destruct (String.eqb_spec t "parameters"); [contradiction | reflexivity]. }
      assert (d1 "parameters" = OKeyed l1) as D2 by reflexivity. clearbody d1.
      assert (forall ts', In ("parameters", ts') (plain_schema f) -> ts' = ts) as Hts.
      { intros ts' H. apply schema_get in H, Hin; try apply Hwf. congruence. }
      assert (map fst l1 = map fst l) as Ek.
      { clear - Hl1. induction Hl1 as [| kr kr1 l l1 (a & v & w & -> & -> & _) _ IH]; simpl; auto. now rewrite IH. }
      exists d1. split; [| split; [| split; [| split]]].
      + intros t ts' H. destruct (string_dec t "parameters") as [-> | N]; [| rewrite D1 by auto; now apply Hok].
        rewrite (Hts _ H), D2. subst ts. unfold table_ok. cbn [tpk]. intros k r Hr.
        destruct (Forall2_In_r _ _ _ _ Hl1 Hr) as (kr & _ & a & v & w & _ & E & _). injection E as -> ->. simpl. auto.
      + intros t ts' H. destruct (string_dec t "parameters") as [-> | N]; [| rewrite D1 by auto; eapply Hks; eauto].
        rewrite D2. cbn iota beta. rewrite Ek. specialize (Hks _ _ H). now rewrite Ed in Hks.
      + intros t ts' H. destruct (string_dec t "parameters") as [-> | N]; [| rewrite D1 by auto; eapply Hpr; eauto].
        rewrite D2. intros k r Hr. destruct (Forall2_In_r _ _ _ _ Hl1 Hr) as (kr & _ & a & v & w & _ & E & _). injection E as -> ->. reflexivity.
      + intros t ts' H. destruct (string_dec t "parameters") as [-> | N]; [| rewrite D1 by auto; apply Hplain; auto].
        rewrite (Hts _ H), D2, Ed. subst ts. clear - Hl1. cbn [full_rows tfields tpk tdf app].
        induction Hl1 as [| kr kr1 l l1 (a & v & w & -> & -> & A & B & _) _ IH]; simpl; constructor; auto.
      + intros t ts' H. unfold adjust_params. destruct (String.eqb_spec t "parameters") as [-> | N]; cbn [andb]; [| now apply D1].
        rewrite Hp, D2, Ed. f_equal. clear - Hl1.
        induction Hl1 as [| kr kr1 l l1 (a & v & w & -> & -> & _ & _ & C) _ IH]; simpl; auto. rewrite IH. now rewrite C.
    - exists d. assert (forall t ts, In (t, ts) (plain_schema f) -> has_params f = true -> t <> "parameters") as Hno.
      { intros t ts H Hp ->. rewrite Hp in Ep. cbn [andb] in Ep. apply (in_map fst) in H. apply mem_str_iff in H. cbn [fst] in H. congruence. }
      do 4 (split; auto).
      + intros t ts H. apply Hplain; eauto.
      + intros t ts H. unfold adjust_params. destruct (String.eqb_spec t "parameters") as [-> | N]; cbn [andb]; auto.
        destruct (has_params f) eqn:Hp; auto. exfalso. eapply Hno; eauto.
  Qed.
End Trip.
