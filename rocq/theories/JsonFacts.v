(** * JSON round trip and duplicates: lemmas. *)
From Coq Require Import ZArith Bool List String Ascii Arith Lia Permutation.
From Verif Require Import PyVal PyValFacts PyDict PyDictFacts PyStr ListFacts Data FindTypes FindTypesFacts FK Obj ObjFacts ObjMore
  Factory FactoryFacts InfIO InfIOFacts Params Names NamesFacts Utils UtilsMore Json ObjRows.
Import ListNotations.
Local Open Scope string_scope.
Local Open Scope list_scope.

(** ** Documents up to order *)

(** A row read back from a file: dicts may be reordered. *)
Definition row_like (x y : rowin) : Prop :=
  match x, y with
  | RDict l, RDict m => Permutation l m
  | _, _ => x = y
  end.

(** [doc'] holds what [doc] holds, its keys in any order; there may be further
    keys, none of which matches a table. *)
Definition doc_like (tables : list string) (doc doc' : jdoc) : Prop :=
  exists mid extra,
    Forall2 (fun a b => fst a = fst b /\ Forall2 row_like (snd a) (snd b)) doc mid /\
    Permutation (mid ++ extra) doc' /\
    forall k t, In k (map fst extra) -> In t tables -> unspace k <> lower t.

(** ** Rows *)

Section Rows.
  Variable date_of : value -> option Z.
  Variable float_of : value -> option value.
  Variable show_date : Z -> string.
  Variable f : factory.

  Let W := json_write_cell date_of show_date f.
  Let R := json_read_cell date_of float_of f.

  (** The cell [v] is written, and read back as [v']. *)
  Definition cell_trip (t x : string) (v v' : value) : Prop := exists w, W t x v = Ret w /\ R t x w = Ret v'.

  Lemma cells_trip : forall t fields r r', List.length r = List.length fields -> List.length r' = List.length fields ->
    Forall2 (fun fx v' => cell_trip t (fst fx) (snd fx) v') (combine fields r) r' ->
    exists ws, List.length ws = List.length fields /\
      mapO (fun fx => W t (fst fx) (snd fx)) (combine fields r) = Ret ws /\
      mapO (fun fx => R t (fst fx) (snd fx)) (combine fields ws) = Ret r'.
  Proof.
    induction fields as [| x fields IH]; intros [| v r] [| v' r'] Hl Hl' H; try discriminate.
    - exists []. auto.
    - simpl in *. inversion H as [| ? ? ? ? (w & Hw & Hr) H']; subst. cbn [fst snd] in *.
      destruct (IH r r') as (ws & L & A & B); [lia | lia | auto |]. exists (w :: ws). simpl. split; [lia |].
      now rewrite Hw, Hr, A, B.
  Qed.

  Lemma read_named : forall t fields ws r', List.length ws = List.length fields ->
    mapO (fun fx => R t (fst fx) (snd fx)) (combine fields ws) = Ret r' ->
    mapO (fun fx : string * value => bindO (R t (fst fx) (snd fx)) (fun v => Ret (fst fx, v))) (combine fields ws) =
      Ret (combine fields r').
  Proof.
    induction fields as [| x fields IH]; intros [| w ws] r' Hl H; try discriminate; simpl in *.
    - reflexivity.
    - destruct (R t x w) as [v |] eqn:E; [| discriminate].
      destruct (mapO _ (combine fields ws)) as [r1 |] eqn:E' in H; [| discriminate]. injection H as <-. simpl.
      rewrite (IH ws r1); auto.
  Qed.

  Lemma mapO_perm {A B} (g : A -> outcome B) : forall l m m', Permutation l m -> mapO g m = Ret m' ->
    exists l', mapO g l = Ret l' /\ Permutation l' m'.
  Proof.
    intros l m m' P H. apply mapO_Forall2 in H. symmetry in P.
    revert m' H. induction P as [| a l1 l2 P IH | a b l1 | l1 l2 l3 P1 IH1 P2 IH2]; intros m' H.
    - inversion H; subst. exists []. auto.
    - inversion H as [| ? b' ? m1 Hb H1]; subst. destruct (IH _ H1) as (l' & A1 & A2). exists (b' :: l').
      split; auto. simpl. now rewrite Hb, A1.
    - inversion H as [| ? b' ? m1 Hb H1]; subst. inversion H1 as [| ? a' ? m2 Ha H2]; subst.
      apply mapO_Forall2 in H2. exists (a' :: b' :: m2). split; [| constructor]. simpl. now rewrite Hb, Ha, H2.
    - destruct (IH1 _ H) as (l' & A1 & A2). apply mapO_Forall2 in A1. destruct (IH2 _ A1) as (l'' & B1 & B2).
      exists l''. split; auto. now rewrite B2.
  Qed.

  Lemma row_trip : forall verbose t ts r r', wf_tschema ts ->
    List.length r = List.length (tfields ts) -> List.length r' = List.length (tfields ts) ->
    Forall2 (fun fx v' => cell_trip t (fst fx) (snd fx) v') (combine (tfields ts) r) r' ->
    exists x, json_write_row date_of show_date f verbose t ts r = Ret x /\
      forall x', row_like x x' -> exists y, json_read_row date_of float_of f t ts x' = Ret y /\ describes (tfields ts) y r'.
  Proof.
    intros verbose t ts r r' Hn Hl Hl' H. destruct (cells_trip _ _ _ _ Hl Hl' H) as (ws & L & A & B).
    unfold json_write_row. fold W. change (fun fx => json_write_cell date_of show_date f t (fst fx) (snd fx))
      with (fun fx : string * value => W t (fst fx) (snd fx)). rewrite A. cbn [bindO]. eexists. split; [reflexivity |].
    intros x' Hx. destruct verbose.
    - destruct x' as [l | l | v]; simpl in Hx; try discriminate. pose proof (read_named _ _ _ _ L B) as N.
      symmetry in Hx. destruct (mapO_perm _ _ _ _ Hx N) as (l' & C & D). cbn [json_read_row].
      fold R. change (fun fx : string * value => bindO (json_read_cell date_of float_of f t (fst fx) (snd fx)) (fun v => Ret (fst fx, v)))
        with (fun fx : string * value => bindO (R t (fst fx) (snd fx)) (fun v => Ret (fst fx, v))).
      rewrite C. cbn [bindO]. eexists. split; [reflexivity |]. right. eauto.
    - simpl in Hx. destruct x' as [l | l | v]; try discriminate. injection Hx as <-. cbn [json_read_row].
      change (fun fx : string * value => json_read_cell date_of float_of f t (fst fx) (snd fx))
        with (fun fx : string * value => R t (fst fx) (snd fx)). rewrite B. cbn [bindO]. eexists. split; [reflexivity |].
      now left.
  Qed.

  (** ** Documents *)

  Lemma full_length : forall ts tb r, table_ok ts tb -> In r (full_rows tb) -> List.length r = List.length (tfields ts).
  Proof.
    intros ts tb r Hok Hr. unfold table_ok, tfields in *. rewrite app_length. destruct (tpk ts) as [| p0 pk0] eqn:Ep, tb as [l0 | l0]; try contradiction.
    - now apply Hok.
    - simpl in Hr. apply in_map_iff in Hr as ([k r0] & <- & Hin). destruct (Hok _ _ Hin) as [H1 H2].
      cbn [fst snd]. rewrite app_length, H2. f_equal. unfold key_shape in H1. rewrite Ep in H1. destruct k; simpl in *; auto.
  Qed.

  (** If [d] goes out and every cell comes back as in [d1], then the tables
      handed to the constructor describe [d1]. *)
  Lemma document_trip : forall verbose d d1, decl_ok (f_decl f) = true ->
    obj_ok (plain_schema f) d -> obj_ok (plain_schema f) d1 ->
    (forall t ts, In (t, ts) (plain_schema f) ->
       Forall2 (fun r r' => Forall2 (fun fx v' => cell_trip t (fst fx) (snd fx) v') (combine (tfields ts) r) r')
         (full_rows (d t)) (full_rows (d1 t))) ->
    exists doc, make_json date_of show_date f verbose d = Ret doc /\
      forall doc', doc_like (map fst (plain_schema f)) doc doc' ->
        exists inputs, json_inputs date_of float_of f doc' = Ret inputs /\
          map fst inputs = map fst (plain_schema f) /\
          (forall t inp, In (t, inp) inputs -> exists ts rows, In (t, ts) (plain_schema f) /\ inp = TRows rows /\
             Forall2 (describes (tfields ts)) rows (full_rows (d1 t))).
  Proof.
    intros verbose d d1 Hd Hok Hok1 Hc. pose proof (plain_wf f Hd) as Hwf. pose proof (plain_legal f Hd) as Hleg.
    (* each table *)
    assert (forall t ts, In (t, ts) (plain_schema f) -> exists rows,
              mapO (json_write_row date_of show_date f verbose t ts) (full_rows (d t)) = Ret rows /\
              forall rows', Forall2 row_like rows rows' -> exists ys,
                mapO (json_read_row date_of float_of f t ts) rows' = Ret ys /\
                Forall2 (describes (tfields ts)) ys (full_rows (d1 t))) as Htab.
    { intros t ts Hin. specialize (Hc _ _ Hin). pose proof (Hok _ _ Hin) as Ho. pose proof (Hok1 _ _ Hin) as Ho1.
      apply Hwf in Hin as Hn.
      assert (forall r, In r (full_rows (d t)) -> List.length r = List.length (tfields ts)) as L by (intros r; apply (full_length ts (d t) r Ho)).
      assert (forall r, In r (full_rows (d1 t)) -> List.length r = List.length (tfields ts)) as L1 by (intros r; apply (full_length ts (d1 t) r Ho1)).
      clear Ho Ho1. induction Hc as [| r r' l l' Hr Hl IH].
      - exists []. split; auto. intros rows' H. inversion H; subst. exists []. split; auto.
      - destruct (row_trip verbose t ts r r') as (x & A & B); auto.
        { apply L. simpl. auto. } { apply L1. simpl. auto. }
        destruct IH as (rows & C & D). { intros; apply L; simpl; auto. } { intros; apply L1; simpl; auto. }
        exists (x :: rows). split. { simpl. now rewrite A, C. }
        intros rows' H. inversion H as [| ? x' ? rows1 Hx Hrows]; subst. destruct (B _ Hx) as (y & E & F).
        destruct (D _ Hrows) as (ys & G & K). exists (y :: ys). split; [simpl; now rewrite E, G | now constructor]. }
    (* the document *)
    set (out := fun tts => bindO (mapO (json_write_row date_of show_date f verbose (fst tts) (snd tts)) (full_rows (d (fst tts))))
                       (fun rows => Ret (fst tts, rows))).
    assert (exists doc, mapO out (plain_schema f) = Ret doc) as [doc Edoc].
    { apply mapO_total. intros [t ts] Hin. destruct (Htab _ _ Hin) as (rows & A & _). unfold out. cbn [fst snd]. rewrite A.
      simpl. eauto. }
    exists doc. split; [exact Edoc |]. apply mapO_Forall2 in Edoc.
    intros doc' (mid & extra & Hmid & Hperm & Hex).
    assert (map fst doc = map fst (plain_schema f)) as Nd.
    { clear - Edoc. induction Edoc as [| [t ts] y l m Hy _ IH]; simpl; auto. f_equal; auto. unfold out in Hy.
      apply bindO_ret in Hy as (rows & _ & E). injection E as <-. reflexivity. }
    assert (map fst mid = map fst doc) as Nm.
    { clear - Hmid. induction Hmid as [| a b l m [Hab _] _ IH]; simpl; auto. f_equal; auto. }
    assert (forall t ts, In (t, ts) (plain_schema f) -> exists rows',
              dget_or String.eqb doc' t [] = rows' /\ exists ys, mapO (json_read_row date_of float_of f t ts) rows' = Ret ys /\
                Forall2 (describes (tfields ts)) ys (full_rows (d1 t))) as Hget.
    { intros t ts Hin. eexists. split; [reflexivity |].
      destruct (Htab _ _ Hin) as (rows & A & B).
      destruct (Forall2_In_l _ _ _ _ Edoc Hin) as ([t1 rows1] & Hin1 & E1). unfold out in E1. cbn [fst snd] in E1.
      rewrite A in E1. cbn [bindO] in E1. injection E1 as <- <-.
      destruct (Forall2_In_l _ _ _ _ Hmid Hin1) as ([t2 rows2] & Hin2 & E2 & F2). cbn [fst snd] in E2, F2. subst t2.
      destruct (B _ F2) as (ys & C & D). exists ys. split; auto.
      unfold dget_or. assert (dget String.eqb doc' t = Some rows2) as ->; auto.
      destruct (dget String.eqb doc' t) as [r3 |] eqn:E3.
      - apply (dget_In String.eqb) in E3 as (t3 & Et & Hin3). apply String.eqb_eq in Et. subst t3.
        symmetry in Hperm. apply (Permutation_in _ Hperm) in Hin3. apply in_app_iff in Hin3 as [Hin3 | Hin3].
        + assert (NoDup (map fst mid)) as Nn by (rewrite Nm, Nd; apply Hwf).
          f_equal. apply (dget_In_NoDup _ _ _ Nn) in Hin2, Hin3. congruence.
        + exfalso. apply (in_map fst) in Hin3. apply (Hex t t Hin3); [now apply (in_map fst) in Hin |].
          apply unspace_nospace. apply Hleg. now apply (in_map fst) in Hin.
      - exfalso. assert (In (t, rows2) doc') as Hin3 by (apply (Permutation_in _ Hperm); apply in_app_iff; auto).
        pose proof (proj1 (dget_None String.eqb _ _) E3 _ _ Hin3). now rewrite String.eqb_refl in *. }
    assert (forall t ts, In (t, ts) (plain_schema f) -> get_json_key (map fst doc') t = Ret (Some t)) as Hkey.
    { intros t ts Hin. pose proof (get_json_key_own false (map fst (plain_schema f)) (map fst doc') (map fst extra) t Hleg) as K.
      unfold out_name, use_pretty in K. simpl in K. rewrite map_id in K. apply K.
      - now apply (in_map fst) in Hin.
      - rewrite <- Nd, <- Nm, <- map_app. symmetry. now apply Permutation_map.
      - intros k t' Hk Ht'. now apply Hex. }
    (* the inputs *)
    set (g := fun tts : string * tschema => bindO (get_json_key (map fst doc') (fst tts)) (fun o =>
        match o with
        | None => Ret []
        | Some k => bindO (mapO (json_read_row date_of float_of f (fst tts) (snd tts)) (dget_or String.eqb doc' k []))
              (fun rows => Ret [(fst tts, TRows rows)])
        end)).
    assert (forall l, (forall t ts, In (t, ts) l -> In (t, ts) (plain_schema f)) -> exists parts, mapO g l = Ret parts /\
              map fst (List.concat parts) = map fst l /\
              forall t inp, In (t, inp) (List.concat parts) -> exists ts rows, In (t, ts) l /\ inp = TRows rows /\
                Forall2 (describes (tfields ts)) rows (full_rows (d1 t))) as Hin.
    { induction l as [| [t ts] l IH]; intros Hsub.
      - exists []. simpl. split; auto. split; auto. intros ? ? [].
      - destruct IH as (parts & A & B & C). { intros; apply Hsub; simpl; auto. }
        assert (In (t, ts) (plain_schema f)) as H1 by (apply Hsub; simpl; auto).
        destruct (Hget _ _ H1) as (rows' & D & ys & E & F). exists ([(t, TRows ys)] :: parts).
        assert (g (t, ts) = Ret [(t, TRows ys)]) as G.
        { unfold g. cbn [fst snd]. rewrite (Hkey _ _ H1). cbn [bindO]. rewrite D, E. reflexivity. }
        cbn [mapO]. rewrite G, A. split; auto. cbn [List.concat app map fst]. split; [now rewrite B |].
        intros t0 inp [H | H].
        + injection H as <- <-. exists ts, ys. simpl. auto.
        + destruct (C _ _ H) as (ts0 & rows0 & X & Y & Z). exists ts0, rows0. simpl. auto. }
    destruct (Hin (plain_schema f)) as (parts & A & B & C); auto.
    exists (List.concat parts). split; [| split; auto]. unfold json_inputs. fold g. now rewrite A.
  Qed.

  (** ** C37 *)

  (** Every cell outside the parameters comes back (see C34 for when). *)
  Definition cells_back (d : obj) : Prop := forall t ts r x v, In (t, ts) (plain_schema f) ->
    (has_params f = true -> t <> "parameters") -> In r (full_rows (d t)) -> In (x, v) (combine (tfields ts) r) ->
    cell_trip t x v v.

  (** Parameters: the names are written as they are, and the value written is
      turned back into the value (see C67 for when). *)
  Definition params_back (d : obj) : Prop := has_params f = true ->
    forall ts, In ("parameters", ts) (plain_schema f) -> exists p q l, ts = mkT [p] [q] /\ d "parameters" = OKeyed l /\
      forall k r, In (k, r) l -> exists a v w, k = KAtom a /\ r = [v] /\
        W "parameters" p a = Ret a /\ W "parameters" q v = Ret w /\ param_cell date_of float_of f a w = v.

  Lemma read_params : forall x v, is_table f "parameters" = true -> R "parameters" x v = Ret v.
  Proof. intros x v H. unfold R, json_read_cell, read_cell. cbn [io_fac]. rewrite H. reflexivity. Qed.

  Theorem json_round_trip : forall verbose d, decl_ok (f_decl f) = true ->
    obj_ok (plain_schema f) d -> obj_keys (plain_schema f) d -> proper_keys (plain_schema f) d ->
    cells_back d -> params_back d ->
    exists doc, make_json date_of show_date f verbose d = Ret doc /\
      forall doc', doc_like (map fst (plain_schema f)) doc doc' ->
        exists e, json_create date_of float_of f doc' = Ret e /\ forall t ts, In (t, ts) (plain_schema f) -> e t = d t.
  Proof.
    intros verbose d Hd Hok Hks Hpr Hcb Hpb. pose proof (plain_wf f Hd) as Hwf.
    (* the object before the adjustment of the parameters *)
    set (out := fun q v => match W "parameters" q v with Ret w => w | Raise => v end).
    set (qname := match dget String.eqb (plain_schema f) "parameters" with Some ts => hd "" (tdf ts) | None => "" end).
    set (d1 := fun t => if String.eqb t "parameters" && has_params f then
                          match d t with OKeyed l => OKeyed (map (fun kr => (fst kr, map (out qname) (snd kr))) l) | tb => tb end
                        else d t).
    assert (forall t, d1 t = d t \/ (t = "parameters" /\ has_params f = true /\ exists l, d t = OKeyed l /\
              d1 t = OKeyed (map (fun kr => (fst kr, map (out qname) (snd kr))) l))) as Hd1.
    { intros t. unfold d1. destruct (String.eqb t "parameters") eqn:E; cbn [andb]; auto.
      destruct (has_params f) eqn:E'; auto. apply String.eqb_eq in E. destruct (d t) as [l | l] eqn:E2; auto. right. eauto. }
    assert (obj_ok (plain_schema f) d1) as Hok1.
    { intros t ts Hin. specialize (Hok _ _ Hin). destruct (Hd1 t) as [-> | (-> & _ & l & E & ->)]; auto. rewrite E in Hok.
      unfold table_ok in *. destruct (tpk ts); auto. intros k r Hr. apply in_map_iff in Hr as ([k0 r0] & Ek & Hr).
      injection Ek as <- <-. rewrite map_length. eauto. }
    assert (obj_keys (plain_schema f) d1) as Hks1.
    { intros t ts Hin. specialize (Hks _ _ Hin). destruct (Hd1 t) as [-> | (-> & _ & l & E & ->)]; auto. rewrite E in Hks.
      now rewrite map_map. }
    assert (proper_keys (plain_schema f) d1) as Hpr1.
    { intros t ts Hin. specialize (Hpr _ _ Hin). destruct (Hd1 t) as [-> | (-> & _ & l & E & ->)]; auto. rewrite E in Hpr.
      intros k r Hr. apply in_map_iff in Hr as ([k0 r0] & Ek & Hr). injection Ek as <- <-. eapply Hpr; eauto. }
    assert (forall t ts, In (t, ts) (plain_schema f) ->
       Forall2 (fun r r' => Forall2 (fun fx v' => cell_trip t (fst fx) (snd fx) v') (combine (tfields ts) r) r')
         (full_rows (d t)) (full_rows (d1 t))) as Hc.
    { intros t ts Hin.
      assert ((has_params f = true -> t <> "parameters") \/ (has_params f = true /\ t = "parameters")) as [Hno | [Hp ->]].
      { destruct (has_params f); [| left; discriminate]. destruct (string_dec t "parameters"); auto. }
      - assert (d1 t = d t) as ->. { destruct (Hd1 t) as [E | (E & E' & _)]; auto. now apply Hno in E'. }
        assert (forall r, In r (full_rows (d t)) -> Forall2 (fun fx v' => cell_trip t (fst fx) (snd fx) v') (combine (tfields ts) r) r) as H.
        { intros r Hr. pose proof (full_length ts (d t) r (Hok _ _ Hin) Hr) as L.
          pose proof (fun x v => Hcb t ts r x v Hin Hno Hr) as H. revert H L. generalize (tfields ts). clear Hr.
          induction r as [| v r IH]; intros [| x fs] H L; try discriminate; simpl; constructor.
          - apply H. simpl. auto.
          - apply IH; [| now injection L]. intros. apply H. simpl. auto. }
        clear - H. induction (full_rows (d t)) as [| r l IH]; constructor.
        + apply H. simpl. auto.
        + apply IH. intros. apply H. simpl. auto.
      - destruct (Hpb Hp ts Hin) as (p & q & l & -> & Ed & Hl).
        assert (qname = q) as Eq.
        { unfold qname. rewrite (proj2 (schema_get _ _ _ (proj1 Hwf)) Hin). reflexivity. }
        assert (d1 "parameters" = OKeyed (map (fun kr => (fst kr, map (out qname) (snd kr))) l)) as ->.
        { unfold d1. rewrite Hp, Ed. reflexivity. }
        rewrite Eq, Ed. cbn [full_rows]. rewrite map_map. pose proof (plain_is_table _ _ _ Hin) as Ht. clear Hin Ed.
        induction l as [| [k r] l IH]; simpl; constructor.
        + destruct (Hl k r) as (a & v & w & -> & -> & A & B & C); [simpl; auto |]. simpl.
          constructor; [| constructor; [| constructor]]; cbn [fst snd].
          * exists a. split; auto. now apply read_params.
          * exists w. unfold out. rewrite B. split; auto. now apply read_params.
        + apply IH. intros. apply Hl. simpl. auto. }
    destruct (document_trip verbose d d1 Hd Hok Hok1 Hc) as (doc & A & B). exists doc. split; auto.
    intros doc' Hdoc. destruct (B _ Hdoc) as (inputs & C & D & E).
    destruct (construct_from_rows (plain_schema f) (f_defaults f) (dup_mode f) d1 inputs) as (e & F & G); auto.
    { rewrite D. apply Hwf. }
    { intros t ts Hin Hno. exfalso. apply Hno. rewrite D. now apply (in_map fst) in Hin. }
    unfold json_create. rewrite C. cbn [bindO]. rewrite F. eexists. split; [reflexivity |].
    intros t ts Hin. unfold adjust_params. rewrite (G _ _ Hin).
    destruct (String.eqb t "parameters" && has_params f) eqn:Et; [| now unfold d1; rewrite Et].
    apply andb_true_iff in Et as [Et Hp]. apply String.eqb_eq in Et. subst t.
    destruct (Hpb Hp ts Hin) as (p & q & l & -> & Ed & Hl).
    assert (qname = q) as Eq.
    { unfold qname. rewrite (proj2 (schema_get _ _ _ (proj1 Hwf)) Hin). reflexivity. }
    assert (d1 "parameters" = OKeyed (map (fun kr => (fst kr, map (out qname) (snd kr))) l)) as ->.
    { unfold d1. rewrite Hp, Ed. reflexivity. }
    rewrite Ed, Eq, map_map. f_equal. clear Hin Ed. induction l as [| [k r] l IH]; simpl; auto. f_equal.
    - destruct (Hl k r) as (a & v & w & -> & -> & Ha & Hw & Hv); [simpl; auto |]. simpl. unfold out. rewrite Hw, Hv. reflexivity.
    - apply IH. intros. apply Hl. simpl. auto.
  Qed.
End Rows.
