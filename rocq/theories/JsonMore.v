(** * JSON: what is accepted, and when the duplicates report agrees with
      reading. *)
From Coq Require Import ZArith Bool List String Ascii Arith Lia Permutation.
From Verif Require Import PyVal PyValFacts PyDict PyDictFacts PyStr ListFacts TypeDict Data FindTypes FindTypesFacts FK Obj ObjFacts ObjMore
  Factory FactoryFacts InfIO InfIOFacts Params Names NamesFacts Utils UtilsMore Json ObjRows JsonFacts JsonDups.
Import ListNotations.
Local Open Scope string_scope.
Local Open Scope list_scope.

Section More.
  Variable date_of : value -> option Z.
  Variable float_of : value -> option value.
  Variable f : factory.

  Let read_row := json_read_row date_of float_of f.

  (** What the reader hands to the constructor. *)
  Lemma inputs_In : forall doc inputs, json_inputs date_of float_of f doc = Ret inputs ->
    (forall t inp, In (t, inp) inputs <-> exists ts k rows, In (t, ts) (plain_schema f) /\
       get_json_key (map fst doc) t = Ret (Some k) /\ mapO (read_row t ts) (dget_or String.eqb doc k []) = Ret rows /\
       inp = TRows rows) /\
    (forall t ts, In (t, ts) (plain_schema f) -> exists o, get_json_key (map fst doc) t = Ret o) /\
    (NoDup (map fst (plain_schema f)) -> NoDup (map fst inputs)).
  Proof.
    intros doc inputs H. unfold json_inputs in H. apply bindO_ret in H as (parts & H & E). injection E as <-.
    apply mapO_Forall2 in H. revert parts H. induction (plain_schema f) as [| [t0 ts0] sch IH]; intros parts H.
    - inversion H; subst. simpl. split; [| split].
      + intros t inp. split; [intros [] | intros (? & ? & ? & [] & _)].
      + intros t ts [].
      + constructor.
    - inversion H as [| ? part ? parts' Hp Hps]; subst. destruct (IH _ Hps) as (A & B & C). cbn [fst snd] in Hp.
      apply bindO_ret in Hp as (o & Hk & Ho). cbn [List.concat]. split; [| split].
      + intros t inp. rewrite in_app_iff, A. destruct o as [k |].
        * apply bindO_ret in Ho as (rows & Hm & E). injection E as <-. split.
          -- intros [[E | []] | (ts & k' & rows' & X & Y)].
             ++ injection E as <- <-. exists ts0, k, rows. simpl. auto.
             ++ exists ts, k', rows'. simpl. auto.
          -- intros (ts & k' & rows' & [X | X] & Y & Z & ->).
             ++ injection X as <- <-. rewrite Hk in Y. injection Y as <-. fold read_row in Hm. rewrite Hm in Z. injection Z as <-.
                simpl. auto.
             ++ right. exists ts, k', rows'. auto.
        * injection Ho as <-. split.
          -- intros [[] | (ts & k' & rows' & X & Y)]. exists ts, k', rows'. simpl. auto.
          -- intros (ts & k' & rows' & [X | X] & Y & Z).
             ++ injection X as <- <-. congruence.
             ++ right. exists ts, k', rows'. auto.
      + intros t ts [E | Hin]; [injection E as <- <-; eauto |]. eapply B; eauto.
      + intros Hn. simpl in Hn. inversion Hn as [| ? ? Hx Hd]; subst. destruct o as [k |].
        * apply bindO_ret in Ho as (rows & Hm & E). injection E as <-. simpl. constructor; auto. intros Hc.
          apply in_map_iff in Hc as ([t inp] & E & Hc). cbn [fst] in E. subst t. apply A in Hc as (ts & _ & _ & Hc & _).
          apply Hx. now apply (in_map fst) in Hc.
        * injection Ho as <-. simpl. auto.
  Qed.

  (** A row of a document that may be read. *)
  Definition readable (fields : list string) (x : rowin) : Prop :=
    match x with
    | RDict l => forall g v, In (g, v) l -> In g fields
    | RSeq l => List.length fields <= List.length l
    | RAtom (VStr s) => List.length fields <= String.length s
    | RAtom _ => False
    end.

  Lemma mapO_length {A B} (g : A -> outcome B) : forall l r, mapO g l = Ret r -> List.length r = List.length l.
  Proof. intros l r H. apply mapO_Forall2 in H. symmetry. eapply Forall2_length'; eauto. Qed.

  Lemma letters_length : forall s, List.length (letters_of s) = String.length s.
  Proof. intros s. unfold letters_of. rewrite map_length. induction s; simpl; auto. Qed.

  Lemma read_shape : forall t ts x y, read_row t ts x = Ret y -> has_shape (tfields ts) y -> readable (tfields ts) x.
  Proof.
    intros t ts x y H Hs. unfold read_row, json_read_row in H.
    assert (forall l, bindO (mapO (fun fx : string * value => json_read_cell date_of float_of f t (fst fx) (snd fx)) (combine (tfields ts) l))
              (fun cells => Ret (RSeq cells)) = Ret y -> List.length (tfields ts) <= List.length l) as Hseq.
    { intros l E. apply bindO_ret in E as (cells & E & E'). injection E' as <-. apply mapO_length in E. simpl in Hs.
      rewrite Hs, combine_length in E. lia. }
    destruct x as [l | l | v].
    - apply bindO_ret in H as (l' & H & E). injection E as <-. simpl in Hs |- *. intros g v Hin. apply mapO_Forall2 in H.
      destruct (Forall2_In_l _ _ _ _ H Hin) as ([g' v'] & Hin' & E). apply bindO_ret in E as (w & _ & E).
      injection E as <- <-. cbn [fst] in *. eapply Hs; eauto.
    - now apply Hseq.
    - destruct v as [| | b | n | s | d]; try discriminate. apply Hseq in H. simpl. now rewrite letters_length in H.
  Qed.

  Lemma good_shape : forall ts rows, good_input ts (TRows rows) <-> forall x, In x rows -> has_shape (tfields ts) x.
  Proof. intros ts rows. unfold good_input, tfields. destruct (tpk ts); simpl; tauto. Qed.

  Lemma construct_good : forall sch dv mode inputs d, wf_schema sch -> construct sch dv mode inputs = Some d -> acceptable sch inputs.
  Proof.
    intros sch dv mode inputs d Hwf H. apply (build_some sch dv); auto. unfold construct in H. fold (build_one sch dv) in H.
    destruct (map_opt (build_one sch dv) inputs); [eauto | discriminate].
  Qed.

  Theorem accepted_rows : forall doc e, decl_ok (f_decl f) = true -> json_create date_of float_of f doc = Ret e ->
    forall t ts, In (t, ts) (plain_schema f) -> exists o, get_json_key (map fst doc) t = Ret o /\
      forall k x, o = Some k -> In x (dget_or String.eqb doc k []) -> readable (tfields ts) x.
  Proof.
    intros doc e Hd H t ts Hin. pose proof (plain_wf f Hd) as Hwf. unfold json_create in H. apply bindO_ret in H as (inputs & Hi & H).
    destruct (construct _ _ _ inputs) as [d |] eqn:Ec; [| discriminate]. destruct (inputs_In _ _ Hi) as (A & B & _).
    destruct (B _ _ Hin) as (o & Ho). exists o. split; auto. intros k x -> Hx.
    assert (exists rows, mapO (read_row t ts) (dget_or String.eqb doc k []) = Ret rows) as (rows & Hm).
    { unfold json_inputs in Hi. apply bindO_ret in Hi as (parts & Hi & _). apply mapO_Forall2 in Hi.
      destruct (Forall2_In_l _ _ _ _ Hi Hin) as (part & _ & E). cbn [fst snd] in E. rewrite Ho in E. cbn [bindO] in E.
      apply bindO_ret in E as (rows & E & _). eauto. }
    assert (In (t, TRows rows) inputs) as Hr by (apply A; exists ts, k, rows; auto).
    apply construct_good in Ec; auto. destruct (Ec _ _ Hr) as (ts' & Hin' & Hg).
    assert (ts' = ts) as ->. { apply schema_get in Hin, Hin'; try apply Hwf. congruence. }
    apply mapO_Forall2 in Hm. destruct (Forall2_In_l _ _ _ _ Hm Hx) as (y & Hy & E).
    eapply read_shape; eauto. now apply (proj1 (good_shape ts rows) Hg).
  Qed.

  Lemma keys_exist : forall ts rows, tpk ts <> [] -> (forall x, In x rows -> has_shape (tfields ts) x) -> exists ks, keys_of_rows ts rows ks.
  Proof.
    intros ts rows Hne H. unfold keys_of_rows. induction rows as [| x rows IH].
    - exists []. constructor.
    - destruct IH as (ks & Hk). { intros; apply H; simpl; auto. }
      assert (has_shape (tpk ts ++ tdf ts) x) as Hx by (apply H; simpl; auto).
      destruct (keyed_row_some [] "" ts x Hne Hx) as ([k r] & E). apply keyed_row_iff in E; auto.
      exists (k :: ks). constructor; eauto.
  Qed.

  (** Literal keys, and nothing changes on reading: then the report is empty
      exactly when the data can be read without losing a row. *)
  Theorem duplicates_agree : forall doc, decl_ok (f_decl f) = true -> dup_mode f = "assert" -> NoDup (map fst doc) ->
    (forall t ts, In (t, ts) (plain_schema f) ->
       (In t (map fst doc) -> get_json_key (map fst doc) t = Ret (Some t)) /\
       (~ In t (map fst doc) -> get_json_key (map fst doc) t = Ret None) /\
       dict_rows (doc_rows doc t) /\ (forall x, In x (doc_rows doc t) -> has_shape (tfields ts) x) /\
       mapO (read_row t ts) (doc_rows doc t) = Ret (doc_rows doc t)) ->
    exists rtn, json_duplicates (plain_schema f) doc = Ret rtn /\
      (rtn = [] <-> exists e, json_create date_of float_of f doc = Ret e).
  Proof.
    intros doc Hd Hmode Hn H. pose proof (plain_wf f Hd) as Hwf.
    destruct (json_duplicates_spec (plain_schema f) doc Hwf Hn) as (rtn & Hr & R1 & R2 & R3).
    { intros t ts Hin Hne. destruct (H _ _ Hin) as (_ & _ & A & B & _). split; auto. now apply keys_exist. }
    exists rtn. split; auto.
    (* the inputs *)
    assert (exists inputs, json_inputs date_of float_of f doc = Ret inputs) as [inputs Hi].
    { unfold json_inputs. set (g := fun tts : string * tschema => _).
      assert (exists parts, mapO g (plain_schema f) = Ret parts) as [parts ->]; [| simpl; eauto].
      apply mapO_total. intros [t ts] Hin. unfold g. cbn [fst snd]. destruct (H _ _ Hin) as (A & B & _ & _ & C).
      destruct (in_dec string_dec t (map fst doc)) as [Ht | Ht].
      - rewrite (A Ht). cbn [bindO]. fold (doc_rows doc t). unfold read_row in C. rewrite C. simpl. eauto.
      - rewrite (B Ht). simpl. eauto. }
    destruct (inputs_In _ _ Hi) as (A & _ & Nn). specialize (Nn (proj1 Hwf)).
    assert (forall t inp, In (t, inp) inputs -> exists ts, In (t, ts) (plain_schema f) /\ inp = TRows (doc_rows doc t)) as Hin.
    { intros t inp Hx. apply A in Hx as (ts & k & rows & X & Y & Z & ->). exists ts. split; auto.
      destruct (H _ _ X) as (P & Q & _ & _ & C). destruct (in_dec string_dec t (map fst doc)) as [Ht | Ht].
      - rewrite (P Ht) in Y. injection Y as <-. fold (doc_rows doc t) in Z. rewrite C in Z. now injection Z as ->.
      - rewrite (Q Ht) in Y. discriminate. }
    assert ((exists e, json_create date_of float_of f doc = Ret e) <->
            exists d, construct (plain_schema f) (f_defaults f) "assert" inputs = Some d) as ->.
    { unfold json_create. rewrite Hi, Hmode. cbn [bindO]. destruct (construct _ _ _ _); split; intros [e E]; eauto; discriminate. }
    rewrite construct_assert by auto.
    assert (acceptable (plain_schema f) inputs) as Hacc.
    { intros t inp Hx. destruct (Hin _ _ Hx) as (ts & X & ->). exists ts. split; auto. apply good_shape. now apply (H _ _ X). }
    split.
    - intros ->. split; auto. intros t ts rows ks Hx Hs Hne Hk. destruct (Hin _ _ Hx) as (ts' & X & E). injection E as ->.
      apply no_equal_times. intros k Hkin. pose proof (times_pos k ks Hkin) as P.
      destruct (Nat.eq_dec (times k ks) 1) as [E | E]; auto. exfalso.
      destruct (R3 t ts ks Hs Hne Hk) as [_ R]. destruct (R k Hkin) as (d & k' & [] & _). lia.
    - intros [_ Hl]. destruct rtn as [| [t d] rtn]; auto. exfalso.
      destruct (R1 t) as (ts & Hs & Hne); [simpl; auto |]. destruct (R2 t d) as (k & n & Hkn); [simpl; auto |].
      destruct (keys_exist ts (doc_rows doc t) Hne) as (ks & Hk); [now apply (H _ _ Hs) |].
      assert (no_equal_keys ks) as Hdk.
      { destruct (in_dec string_dec t (map fst doc)) as [Ht | Ht].
        - eapply Hl; eauto. apply A. destruct (H _ _ Hs) as (P & _ & _ & _ & C). exists ts, t, (doc_rows doc t). auto.
        - assert (doc_rows doc t = []) as E.
          { unfold doc_rows, dget_or. destruct (dget String.eqb doc t) as [rows |] eqn:Eg; auto. exfalso. apply Ht.
            apply dget_In_NoDup in Eg; auto. now apply (in_map fst) in Eg. }
          rewrite E in Hk. inversion Hk; subst. constructor. }
      (* the reported key is one of [ks] *)
      assert (1 < n /\ exists k0, In k0 ks /\ n = times k0 ks) as (Hn1 & k0 & Hk0 & ->).
      { destruct (R3 t ts ks Hs Hne Hk) as [P _]. destruct (P d k n) as (k0 & P1 & _ & P2 & P3); simpl; auto. split; auto. eauto. }
      rewrite (proj1 (no_equal_times ks) Hdk k0 Hk0) in Hn1. lia.
  Qed.
End More.
