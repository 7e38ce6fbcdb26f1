(** * Facts about keyword renaming *)
From Coq Require Import Bool List String Ascii Arith Lia.
From Verif Require Import PyVal PyValFacts PyDict PyDictFacts PyStr ListFacts TypeDict TypeDictFacts Data
  FindTypes FindTypesFacts FK FKFacts Factory FactoryFacts FactoryMore FactoryRename Keywords NamesFacts.
Import ListNotations.
Local Open Scope string_scope.
Local Open Scope list_scope.

(** The declaration with every field renamed by [ren]. *)
Definition ren_decl (ren : string -> string) (td : string * tdecl) : string * tdecl :=
  (fst td, match snd td with
           | Generic => Generic
           | Fields ts => Fields (mkT (map ren (tpk ts)) (map ren (tdf ts)))
           end).

Lemma all_some_map {A B} (h : A -> option B) (g : A -> B) : forall l,
  (forall x, In x l -> h x = Some (g x)) -> all_some (map h l) = Some (map g l).
Proof.
  induction l as [|a l IH]; simpl; intros H; auto. rewrite (H a) by auto. rewrite IH by auto. reflexivity.
Qed.

Lemma all_some_inv {A B} (h : A -> option B) : forall l r, all_some (map h l) = Some r ->
  forall x, In x l -> exists y, h x = Some y.
Proof.
  induction l as [|a l IH]; simpl; intros r H x Hx; [contradiction|].
  destruct (h a) as [b|] eqn:E; [|discriminate].
  destruct (all_some (map h l)) as [r'|] eqn:E'; [|discriminate].
  destruct Hx as [<-|Hx]; eauto.
Qed.

Definition all_fields_of (d : list (string * tdecl)) (x : string) : Prop :=
  exists t ts, In (t, Fields ts) d /\ In x (tpk ts ++ tdf ts).

Lemma forallb_map {A B} (g : A -> B) (p : B -> bool) : forall l,
  forallb p (map g l) = forallb (fun x => p (g x)) l.
Proof. induction l; simpl; congruence. Qed.

Lemma mapped_forallb {A B} (g : A -> B) (p : A -> bool) (q : B -> bool) : forall l,
  (forall x, In x l -> p x = true -> q (g x) = true) ->
  forallb p l = true -> forallb q (map g l) = true.
Proof.
  intros l H. rewrite !forallb_forall. intros Hp y Hy. apply in_map_iff in Hy as (x & <- & Hx). auto.
Qed.

Lemma NoDup_map_inj' {A B} (g h : A -> B) : forall l, 
  (forall x y, In x l -> In y l -> h x = h y -> g x = g y) -> NoDup (map g l) -> NoDup (map h l).
Proof.
  induction l as [|a l IH]; simpl; intros H N; [constructor|]. inversion N as [|? ? N1 N2]; subst. constructor.
  - intros Q. apply in_map_iff in Q as (x & E & Hx). apply N1. apply in_map_iff. exists x. split; auto.
  - apply IH; auto.
Qed.

Section Change.
  Variable parses : value -> bool.

  Inductive edit : Type :=
  | EDef : string -> string -> value -> edit
  | ETyp : string -> string -> dtype -> edit.
  Definition edit_op (e : edit) : op :=
    match e with EDef t y v => OSetDefault t y v | ETyp t y dt => OSetType t y (args_of dt) end.
  Definition edit_upd (g : factory) (e : edit) : factory :=
    match e with
    | EDef t y v => with_defaults g (dset2 (f_defaults g) t y v)
    | ETyp t y dt => with_types g (dset2 (f_types g) t y dt)
    end.
  Definition edits (f : factory) (m : (string * string) * string) : list edit :=
    (match dget2 (f_defaults f) (fst (fst m)) (snd (fst m)) with
     | Some v => [EDef (fst (fst m)) (snd m) v] | None => [] end) ++
    (match dget2 (f_types f) (fst (fst m)) (snd (fst m)) with
     | Some dt => [ETyp (fst (fst m)) (snd m) dt] | None => [] end).

  Lemma copy_ops_edits : forall f l, flat_map (copy_ops f) l = map edit_op (flat_map (edits f) l).
  Proof.
    intros f l. rewrite map_flat_map. apply flat_map_ext_in. intros m _. unfold copy_ops, edits.
    rewrite map_app. f_equal.
    - destruct (dget2 (f_defaults f) _ _); reflexivity.
    - destruct (dget2 (f_types f) _ _); reflexivity.
  Qed.

  Definition defs (l : list edit) := flat_map (fun e => match e with EDef t y v => [((t, y), v)] | _ => [] end) l.
  Definition typs (l : list edit) := flat_map (fun e => match e with ETyp t y v => [((t, y), v)] | _ => [] end) l.

  Lemma fold_edits : forall l g,
    f_defaults (fold_left edit_upd l g) = set_all (f_defaults g) (defs l) /\
    f_types (fold_left edit_upd l g) = set_all (f_types g) (typs l) /\
    f_decl (fold_left edit_upd l g) = f_decl g.
  Proof.
    induction l as [|e l IH]; intros g; simpl; [auto|].
    destruct (IH (edit_upd g e)) as (A & B & C). rewrite A, B, C. destruct e; simpl; auto.
  Qed.

  Lemma last_bind_unique {V} : forall (l : list ((string * string) * V)) k v,
    In (k, v) l -> (forall v', In (k, v') l -> v' = v) -> last_bind tf_eqb l k = Some v.
  Proof.
    induction l as [|[k0 v0] l IH]; intros k v Hin Hu; [contradiction|]. simpl.
    destruct (last_bind tf_eqb l k) as [w|] eqn:E.
    - f_equal. apply Hu. right.
      clear -E. revert E. induction l as [|[k1 v1] l IHl]; simpl; [discriminate|].
      destruct (last_bind tf_eqb l k); intros E.
      + injection E as ->. auto.
      + destruct (tf_eqb k1 k) eqn:Ek; [|discriminate]. apply tf_eqb_eq in Ek. injection E as ->. subst. auto.
    - destruct Hin as [Hin|Hin].
      + injection Hin as -> ->. now rewrite tf_eqb_refl.
      + assert (Q : last_bind tf_eqb l k = Some v) by (apply IH; auto; intros; apply Hu; simpl; auto).
        congruence.
  Qed.

  Lemma last_bind_absent {V} : forall (l : list ((string * string) * V)) k,
    (forall v, ~ In (k, v) l) -> last_bind tf_eqb l k = None.
  Proof.
    induction l as [|[k0 v0] l IH]; intros k H; simpl; auto.
    rewrite IH by (intros v Hv; apply (H v); simpl; auto).
    destruct (tf_eqb k0 k) eqn:E; auto. apply tf_eqb_eq in E. subst. exfalso. apply (H v0). simpl; auto.
  Qed.

  (** The lemma behind both directions. *)
  Lemma change_spec : forall f kw undo (ren : string -> string),
    inv parses f ->
    (forall td, In td (f_decl f) -> snd td <> Generic) ->
    (forall x, all_fields_of (f_decl f) x -> new_field kw undo x = Some (ren x)) ->
    decl_ok (map (ren_decl ren) (f_decl f)) = true ->
    exists g, change_fields parses f kw undo = Some g /\
      f_decl g = map (ren_decl ren) (f_decl f) /\
      (forall t x, field_of (f_decl f) t x ->
         shown_default g t (ren x) = shown_default f t x /\ shown_type g t (ren x) = shown_type f t x).
  Proof.
    intros f kw undo ren Hi Hg Hn Hd. pose proof (inv_decl _ _ Hi) as Hdf.
    pose proof (decl_ok_nodup _ Hdf) as Hnd.
    unfold change_fields.
    rewrite (all_some_map _ (ren_decl ren)).
    2:{ intros [t [|ts]] Hin; [exfalso; apply (Hg _ Hin); reflexivity|].
        unfold new_decl, new_fields, ren_decl. simpl.
        rewrite !(all_some_map _ ren); auto.
        - intros x Hx. apply Hn. exists t, ts. rewrite in_app_iff. auto.
        - intros x Hx. apply Hn. exists t, ts. rewrite in_app_iff. auto. }
    unfold init. rewrite Hd.
    set (g0 := mkF _ _ _ _ _ _ _ _ _ _ _ _ _ _).
    rewrite copy_ops_edits. set (es := flat_map (edits f) (mapping kw undo (f_decl f))).
    assert (M : forall t x y, In ((t, x), y) (mapping kw undo (f_decl f)) <-> field_of (f_decl f) t x /\ y = ren x).
    { intros t x y. unfold mapping. rewrite in_flat_map. split.
      - intros ([t' [|ts]] & H1 & H2); simpl in H2; [contradiction|].
        apply in_flat_map in H2 as (x' & H2 & H3).
        assert (Hx' : all_fields_of (f_decl f) x') by (exists t', ts; auto).
        rewrite (Hn _ Hx') in H3. destruct H3 as [E|[]]. injection E as -> -> <-. split; auto.
        exists ts. split; auto. now apply decl_of_In.
      - intros ((ts & H1 & H2) & ->). apply decl_of_In in H1; auto. exists (t, Fields ts). split; auto. simpl.
        apply in_flat_map. exists x. split; auto. rewrite (Hn x) by (exists t, ts; auto). simpl. auto. }
    assert (F : forall t x, field_of (f_decl f) t x -> field_of (map (ren_decl ren) (f_decl f)) t (ren x)).
    { intros t x (ts & H1 & H2). exists (mkT (map ren (tpk ts)) (map ren (tdf ts))). simpl. split.
      - apply decl_of_In in H1; auto. apply decl_of_In.
        + rewrite map_map. simpl. exact Hnd.
        + apply in_map_iff. exists (t, Fields ts). auto.
      - rewrite <- map_app. now apply in_map. }
    assert (Inj : forall t x x', field_of (f_decl f) t x -> field_of (f_decl f) t x' -> ren x = ren x' -> x = x').
    { intros t x x' (ts & H1 & H2) (ts' & H1' & H2') E. rewrite H1 in H1'. injection H1' as <-.
      assert (H1'' : decl_of (map (ren_decl ren) (f_decl f)) t =
                     Some (Fields (mkT (map ren (tpk ts)) (map ren (tdf ts))))).
      { apply decl_of_In in H1; auto. apply decl_of_In.
        - rewrite map_map. simpl. exact Hnd.
        - apply in_map_iff. exists (t, Fields ts). auto. }
      destruct (decl_ok_fields _ _ _ Hd H1'') as [N _]. simpl in N. rewrite <- map_app in N.
      now apply (NoDup_map_inj_in ren _ _ _ N). }
    destruct (exec_map parses edit_op edit_upd
      (fun g => f_decl g = map (ren_decl ren) (f_decl f) /\ f_used g = false /\ f_params g = []) es g0) as [E _].
    - repeat split.
    - intros g e He (G1 & G2 & G3). unfold es in He. apply in_flat_map in He as ([[t x] y] & H1 & H2).
      apply M in H1 as [H1 ->]. unfold edits in H2. simpl in H2. apply in_app_or in H2 as [H2|H2].
      + destruct (dget2 (f_defaults f) t x) as [v|] eqn:Ev; [|contradiction]. destruct H2 as [<-|[]].
        split; [|simpl; auto]. apply step_default_ok; auto.
        * rewrite G1. now apply F.
        * destruct (inv_defaults _ _ Hi) as [_ Q]. now apply Q in Ev as [_ Ev].
      + destruct (dget2 (f_types f) t x) as [dt|] eqn:Ev; [|contradiction]. destruct H2 as [<-|[]].
        split; [|simpl; auto]. apply step_type_ok; auto.
        * rewrite G1. now apply F.
        * destruct (inv_types _ _ Hi) as [_ Q]. now apply Q in Ev as [_ Ev].
    - destruct (fold_edits es g0) as (A & B & C). exists (fold_left edit_upd es g0). split; auto. split; auto.
      intros t x Hx.
      assert (D1 : forall t' y v, In ((t', y), v) (defs es) <->
        exists x', field_of (f_decl f) t' x' /\ y = ren x' /\ dget2 (f_defaults f) t' x' = Some v).
      { intros t' y v. unfold defs, es. rewrite in_flat_map. split.
        - intros (e & H1 & H2). apply in_flat_map in H1 as ([[t1 x1] y1] & H3 & H4).
          apply M in H3 as [H3 ->]. unfold edits in H4. simpl in H4. apply in_app_or in H4 as [H4|H4].
          + destruct (dget2 (f_defaults f) t1 x1) eqn:Ev; [|contradiction]. destruct H4 as [<-|[]].
            destruct H2 as [H2|[]]. injection H2 as -> <- <-. eauto.
          + destruct (dget2 (f_types f) t1 x1); [|contradiction]. destruct H4 as [<-|[]]. destruct H2.
        - intros (x' & H1 & -> & H2). exists (EDef t' (ren x') v). split; [|simpl; auto].
          apply in_flat_map. exists ((t', x'), ren x'). split; [now apply M|].
          unfold edits. simpl. rewrite H2. simpl. auto. }
      assert (D2 : forall t' y v, In ((t', y), v) (typs es) <->
        exists x', field_of (f_decl f) t' x' /\ y = ren x' /\ dget2 (f_types f) t' x' = Some v).
      { intros t' y v. unfold typs, es. rewrite in_flat_map. split.
        - intros (e & H1 & H2). apply in_flat_map in H1 as ([[t1 x1] y1] & H3 & H4).
          apply M in H3 as [H3 ->]. unfold edits in H4. simpl in H4. apply in_app_or in H4 as [H4|H4].
          + destruct (dget2 (f_defaults f) t1 x1); [|contradiction]. destruct H4 as [<-|[]]. destruct H2.
          + destruct (dget2 (f_types f) t1 x1) eqn:Ev; [|contradiction]. destruct H4 as [<-|[]].
            destruct H2 as [H2|[]]. injection H2 as -> <- <-. eauto.
        - intros (x' & H1 & -> & H2). exists (ETyp t' (ren x') v). split; [|simpl; auto].
          apply in_flat_map. exists ((t', x'), ren x'). split; [now apply M|].
          unfold edits. simpl. rewrite H2. apply in_or_app. simpl. auto. }
      split.
      + unfold shown_default. rewrite A, set_all_get.
        destruct (dget2 (f_defaults f) t x) as [v|] eqn:Ev.
        * rewrite (last_bind_unique _ _ v); auto.
          -- apply D1. eauto.
          -- intros v' Hv'. apply D1 in Hv' as (x' & H1 & H2 & H3). apply (Inj t) in H2; auto. congruence.
        * rewrite last_bind_absent.
          -- unfold g0. simpl. apply zero_defaults_get; auto. intros (ts' & H1 & H2).
             (* a renamed data field comes from a data field, which has a default *)
             apply decl_of_In in H1; [|rewrite map_map; exact Hnd].
             apply in_map_iff in H1 as ([t1 d1] & E1 & H1). unfold ren_decl in E1. simpl in E1.
             injection E1 as -> E1. destruct d1 as [|ts]; [discriminate|]. injection E1 as <-. simpl in H2.
             apply in_map_iff in H2 as (x' & H2 & H3).
             assert (Hd' : data_field_of (f_decl f) t x').
             { exists ts. split; auto. now apply decl_of_In. }
             assert (x' = x) by (apply (Inj t); auto using data_field_field). subst x'.
             apply (inv_full _ _ Hi) in Hd'. congruence.
          -- intros v Hv. apply D1 in Hv as (x' & H1 & H2 & H3). apply (Inj t) in H2; auto. congruence.
      + unfold shown_type. rewrite B, set_all_get.
        destruct (dget2 (f_types f) t x) as [v|] eqn:Ev.
        * rewrite (last_bind_unique _ _ v); auto.
          -- apply D2. eauto.
          -- intros v' Hv'. apply D2 in Hv' as (x' & H1 & H2 & H3). apply (Inj t) in H2; auto. congruence.
        * rewrite last_bind_absent; [reflexivity|].
          intros v Hv. apply D2 in Hv as (x' & H1 & H2 & H3). apply (Inj t) in H2; auto. congruence.
  Qed.

  (** ** The two renamings *)

  Definition mark (kw : list string) (x : string) : string := if mem_str (lower x) kw then String "_" x else x.
  Definition unmark (x : string) : string :=
    match x with String c x' => if Ascii.eqb c "_" then x' else x | EmptyString => x end.

  Lemma unmark_mark : forall kw x, starts_with_char "_" x = false -> unmark (mark kw x) = x.
  Proof.
    intros kw x H. unfold mark. destruct (mem_str (lower x) kw); [reflexivity|].
    destruct x as [|c x]; [reflexivity|]. simpl in *. rewrite Ascii.eqb_sym in H. now rewrite H.
  Qed.

  Lemma mark_lower_inj : forall kw x y, starts_with_char "_" x = false -> starts_with_char "_" y = false ->
    lower (mark kw x) = lower (mark kw y) -> lower x = lower y.
  Proof.
    intros kw x y Hx Hy E. unfold mark in E.
    assert (Q : forall z, starts_with_char "_" z = false -> forall w, lower z <> lower (String "_" w)).
    { intros z Hz w Ez. destruct z as [|c z]; [discriminate|]. unfold lower in Ez. simpl in Ez, Hz.
      injection Ez as Ec _. assert (K : Ascii.eqb (lower_char c) "_" = true).
      { rewrite Ec. reflexivity. }
      rewrite lower_underscore, Ascii.eqb_sym in K. congruence. }
    destruct (mem_str (lower x) kw), (mem_str (lower y) kw).
    - unfold lower in *. simpl in E. now injection E.
    - symmetry in E. now apply Q in E.
    - now apply Q in E.
    - exact E.
  Qed.

  Lemma mark_inj : forall kw x y, starts_with_char "_" x = false -> starts_with_char "_" y = false ->
    mark kw x = mark kw y -> x = y.
  Proof.
    intros kw x y Hx Hy E. rewrite <- (unmark_mark kw x Hx), <- (unmark_mark kw y Hy). congruence.
  Qed.

  Lemma marked_decl_ok : forall kw d, decl_ok d = true ->
    (forall x, all_fields_of d x -> starts_with_char "_" x = false) ->
    decl_ok (map (ren_decl (mark kw)) d) = true.
  Proof.
    intros kw d Hd Hu. unfold decl_ok in *. rewrite !andb_true_iff in *. destruct Hd as [[[A B] C] D].
    split; [split; [split|]|].
    - eapply mapped_forallb; [|exact A]. auto.
    - eapply mapped_forallb; [|exact B]. auto.
    - rewrite map_map. exact C.
    - eapply mapped_forallb; [|exact D]. intros [t [|ts]] Hin Q; [reflexivity|].
      simpl in *. unfold decl_table_ok in *. simpl in *. rewrite !andb_true_iff in *. destruct Q as [[D1 D2] D3].
      rewrite <- map_app. rewrite !distinct_b_iff in *. rewrite map_length. split; [split|]; auto.
      + apply NoDup_map_inj; auto. intros x y Hx Hy. apply mark_inj; apply Hu; exists t, ts; auto.
      + rewrite map_map. eapply (NoDup_map_inj' lower) ; eauto. intros x y Hx Hy E.
        eapply mark_lower_inj; eauto; apply Hu; exists t, ts; auto.
  Qed.

  Lemma ren_decl_back : forall kw d, (forall x, all_fields_of d x -> starts_with_char "_" x = false) ->
    map (ren_decl unmark) (map (ren_decl (mark kw)) d) = d.
  Proof.
    intros kw d H. rewrite map_map. rewrite <- (map_id d) at 2. apply map_ext_in. intros [t [|ts]] Hin; [reflexivity|].
    unfold ren_decl. simpl. rewrite !map_map.
    assert (Q : forall l, incl l (tpk ts ++ tdf ts) -> map (fun x => unmark (mark kw x)) l = l).
    { intros l Hl. rewrite <- (map_id l) at 2. apply map_ext_in. intros x Hx. apply unmark_mark, H.
      exists t, ts. auto. }
    rewrite !Q; [destruct ts; reflexivity|apply incl_appr, incl_refl|apply incl_appl, incl_refl].
  Qed.

  Lemma change_inv : forall f kw g, change_fields parses f kw false = Some g ->
    (forall td, In td (f_decl f) -> snd td <> Generic) /\
    (forall x, all_fields_of (f_decl f) x -> starts_with_char "_" x = false).
  Proof.
    intros f kw g H. unfold change_fields in H.
    destruct (all_some (map (new_decl kw false) (f_decl f))) as [d|] eqn:E; [|discriminate].
    pose proof (all_some_inv _ _ _ E) as Q. split.
    - intros [t d0] Hin Hg. simpl in Hg. subst. destruct (Q _ Hin) as (y & Hy). discriminate.
    - intros x (t & ts & Hin & Hx). destruct (Q _ Hin) as (y & Hy). unfold new_decl in Hy. simpl in Hy.
      unfold new_fields in Hy.
      destruct (all_some (map (new_field kw false) (tpk ts))) as [p|] eqn:E1; [|discriminate].
      destruct (all_some (map (new_field kw false) (tdf ts))) as [q|] eqn:E2; [|discriminate].
      assert (exists y, new_field kw false x = Some y) as (y' & Hy').
      { apply in_app_or in Hx as [Hx|Hx]; [apply (all_some_inv _ _ _ E1 _ Hx)|apply (all_some_inv _ _ _ E2 _ Hx)]. }
      unfold new_field in Hy'. destruct (starts_with_char "_" x); congruence.
  Qed.

  Lemma new_field_mark : forall kw x, starts_with_char "_" x = false -> new_field kw false x = Some (mark kw x).
  Proof. intros kw x H. unfold new_field, mark. now rewrite H. Qed.

  Lemma ren_decl_generic : forall ren d, (forall td, In td d -> snd td <> Generic) ->
    forall td, In td (map (ren_decl ren) d) -> snd td <> Generic.
  Proof.
    intros ren d H td Hin. apply in_map_iff in Hin as ([t [|ts]] & <- & Hin); simpl; [|discriminate].
    exfalso. now apply (H _ Hin).
  Qed.

  Lemma change_marks : forall f kw, inv parses f ->
    (forall td, In td (f_decl f) -> snd td <> Generic) ->
    (forall x, all_fields_of (f_decl f) x -> starts_with_char "_" x = false) ->
    exists g, change_fields parses f kw false = Some g /\
      f_decl g = map (ren_decl (mark kw)) (f_decl f) /\ decl_ok (f_decl g) = true /\
      (forall t x, field_of (f_decl f) t x ->
         shown_default g t (mark kw x) = shown_default f t x /\ shown_type g t (mark kw x) = shown_type f t x).
  Proof.
    intros f kw Hi Hg Hu.
    destruct (change_spec f kw false (mark kw) Hi Hg) as (g & A & B & C).
    - intros x Hx. apply new_field_mark; auto.
    - apply marked_decl_ok; auto. apply (inv_decl _ _ Hi).
    - exists g. split; auto. split; auto. split; auto. rewrite B. apply marked_decl_ok; auto. apply (inv_decl _ _ Hi).
  Qed.

  Lemma change_reachable : forall f kw undo g, change_fields parses f kw undo = Some g -> reachable parses g.
  Proof.
    intros f kw undo g H. unfold change_fields in H.
    destruct (all_some _) as [d|]; [|discriminate].
    destruct (init d) as [g0|] eqn:E; [|discriminate].
    apply exec_run in H. exists d, g0. eauto.
  Qed.

  Lemma field_of_all : forall d t x, field_of d t x -> decl_ok d = true -> all_fields_of d x.
  Proof.
    intros d t x (ts & H1 & H2) Hd. exists t, ts. split; auto. apply decl_of_In in H1; auto. now apply decl_ok_nodup.
  Qed.

  Lemma change_back : forall f kw kw' g, reachable parses f -> change_fields parses f kw false = Some g ->
    exists h, change_fields parses g kw' true = Some h /\ f_decl h = f_decl f /\
      (forall t x, shown_default h t x = shown_default f t x /\ shown_type h t x = shown_type f t x).
  Proof.
    intros f kw kw' g Hr H. pose proof (reachable_inv _ _ Hr) as Hi.
    destruct (change_inv _ _ _ H) as [Hg Hu].
    destruct (change_marks f kw Hi Hg Hu) as (g' & A & B & C & D).
    rewrite A in H. injection H as ->.
    pose proof (reachable_inv _ _ (change_reachable _ _ _ _ A)) as Hig.
    assert (Back : map (ren_decl unmark) (f_decl g) = f_decl f).
    { rewrite B. now apply ren_decl_back. }
    destruct (change_spec g kw' true unmark Hig) as (h & A' & B' & C').
    - rewrite B. now apply ren_decl_generic.
    - intros x _. reflexivity.
    - rewrite Back. apply (inv_decl _ _ Hi).
    - rewrite Back in B'. exists h. split; auto. split; auto.
      pose proof (reachable_inv _ _ (change_reachable _ _ _ _ A')) as Hih.
      assert (Fld : forall t x, field_of (f_decl f) t x -> field_of (f_decl g) t (mark kw x)).
      { intros t x (ts & H1 & H2). rewrite B. exists (mkT (map (mark kw) (tpk ts)) (map (mark kw) (tdf ts))). split.
        - apply decl_of_In in H1; [|apply decl_ok_nodup, (inv_decl _ _ Hi)]. apply decl_of_In.
          + rewrite map_map. simpl. apply decl_ok_nodup, (inv_decl _ _ Hi).
          + apply in_map_iff. exists (t, Fields ts). auto.
        - simpl. rewrite <- map_app. now apply in_map. }
      assert (Dec : forall t x, field_of (f_decl f) t x \/ ~ field_of (f_decl f) t x).
      { intros t x. unfold field_of. destruct (decl_of (f_decl f) t) as [[|ts]|] eqn:E.
        - right. intros (ts & H1 & _). congruence.
        - destruct (in_dec string_dec x (tpk ts ++ tdf ts)) as [I|I]; [left; eauto|].
          right. intros (ts' & H1 & H2). injection H1 as <-. auto.
        - right. intros (ts & H1 & _). congruence. }
      intros t x. destruct (Dec t x) as [Hx|Hx].
      + destruct (C' t (mark kw x) (Fld _ _ Hx)) as [P Q]. assert (U : unmark (mark kw x) = x).
        { apply unmark_mark, Hu. eapply field_of_all; eauto. apply (inv_decl _ _ Hi). }
        rewrite U in P, Q. destruct (D t x Hx) as [P' Q']. split; congruence.
      + split.
        * transitivity (@None value).
          -- unfold shown_default. destruct (dget2 (f_defaults h) t x) eqn:E; auto. exfalso.
             destruct (inv_defaults _ _ Hih) as [_ Q]. apply Q in E as [E _]. rewrite B' in E. auto.
          -- unfold shown_default. destruct (dget2 (f_defaults f) t x) eqn:E; auto. exfalso.
             destruct (inv_defaults _ _ Hi) as [_ Q]. apply Q in E as [E _]. auto.
        * transitivity (@None dtype).
          -- unfold shown_type. destruct (dget2 (f_types h) t x) eqn:E; auto. exfalso.
             destruct (inv_types _ _ Hih) as [_ Q]. apply Q in E as [E _]. rewrite B' in E. auto.
          -- unfold shown_type. destruct (dget2 (f_types f) t x) eqn:E; auto. exfalso.
             destruct (inv_types _ _ Hi) as [_ Q]. apply Q in E as [E _]. auto.
  Qed.

  Lemma starts_us : forall x, starts_with_char "_" x = false <-> (forall x', x <> String "_" x').
  Proof.
    intros [|c x]; simpl; [split; auto; discriminate|]. split.
    - intros H x' E. injection E as -> ->. discriminate.
    - intros H. destruct (Ascii.eqb "_" c) eqn:E; auto. apply Ascii.eqb_eq in E. subst. exfalso. now apply (H x).
  Qed.

  Lemma change_accepted : forall f kw, reachable parses f ->
    ((exists g, change_fields parses f kw false = Some g) <->
     (forall t d, In (t, d) (f_decl f) -> exists ts, d = Fields ts /\
        forall x, In x (tpk ts ++ tdf ts) -> forall x', x <> String "_" x')).
  Proof.
    intros f kw Hr. split.
    - intros (g & H). destruct (change_inv _ _ _ H) as [Hg Hu]. intros t [|ts] Hin.
      + exfalso. now apply (Hg _ Hin).
      + exists ts. split; auto. intros x Hx. apply starts_us, Hu. exists t, ts. auto.
    - intros H. destruct (change_marks f kw) as (g & A & _).
      + now apply reachable_inv.
      + intros [t d] Hin E. simpl in E. subst. destruct (H _ _ Hin) as (ts & E & _). discriminate.
      + intros x (t & ts & Hin & Hx). apply starts_us. destruct (H _ _ Hin) as (ts' & E & Q). injection E as <-. auto.
      + eauto.
  Qed.

  Lemma change_result : forall f kw g, reachable parses f -> change_fields parses f kw false = Some g ->
    f_decl g = map (ren_decl (mark kw)) (f_decl f) /\ decl_ok (f_decl g) = true /\
    (forall x, all_fields_of (f_decl f) x -> starts_with_char "_" x = false) /\
    (forall t x, field_of (f_decl f) t x ->
       shown_default g t (mark kw x) = shown_default f t x /\ shown_type g t (mark kw x) = shown_type f t x).
  Proof.
    intros f kw g Hr H. destruct (change_inv _ _ _ H) as [Hg Hu].
    destruct (change_marks f kw (reachable_inv _ _ Hr) Hg Hu) as (g' & A & B & C & D).
    rewrite A in H. injection H as ->. auto.
  Qed.

  Lemma ren_decl_of : forall ren d t ts, decl_ok d = true -> decl_of d t = Some (Fields ts) ->
    decl_of (map (ren_decl ren) d) t = Some (Fields (mkT (map ren (tpk ts)) (map ren (tdf ts)))).
  Proof.
    intros ren d t ts Hd H. apply decl_of_In in H; [|now apply decl_ok_nodup]. apply decl_of_In.
    - rewrite map_map. simpl. now apply decl_ok_nodup.
    - apply in_map_iff. exists (t, Fields ts). auto.
  Qed.

  Lemma change_renamed : forall f kw g, reachable parses f -> change_fields parses f kw false = Some g ->
    map fst (f_decl g) = map fst (f_decl f) /\
    forall t ts, decl_of (f_decl f) t = Some (Fields ts) ->
    exists ts', decl_of (f_decl g) t = Some (Fields ts') /\
      List.length (tpk ts') = List.length (tpk ts) /\ List.length (tdf ts') = List.length (tdf ts) /\
      forall i x, nth_error (tpk ts ++ tdf ts) i = Some x ->
      exists y, nth_error (tpk ts' ++ tdf ts') i = Some y /\
        (In (lower x) kw -> y = String "_" x) /\ (~ In (lower x) kw -> y = x) /\
        shown_default g t y = shown_default f t x /\ shown_type g t y = shown_type f t x.
  Proof.
    intros f kw g Hr H. pose proof (inv_decl _ _ (reachable_inv _ _ Hr)) as Hd.
    destruct (change_result _ _ _ Hr H) as (B & C & U & D). split.
    - rewrite B, map_map. reflexivity.
    - intros t ts Ht. rewrite B. exists (mkT (map (mark kw) (tpk ts)) (map (mark kw) (tdf ts))).
      split; [apply ren_decl_of; auto|]. simpl. rewrite !map_length.
      split; auto. split; auto. intros i x Hi. exists (mark kw x). rewrite <- map_app. split; [now apply map_nth_error|].
      assert (Hx : field_of (f_decl f) t x) by (exists ts; split; auto; eapply nth_error_In; eauto).
      unfold mark at 1 2. destruct (mem_str (lower x) kw) eqn:E.
      + apply mem_str_iff in E. split; auto. split; [tauto|]. auto.
      + assert (~ In (lower x) kw) by (intros Q; apply mem_str_iff in Q; congruence).
        split; [tauto|]. split; auto.
  Qed.

  Lemma change_no_collision : forall f kw g t ts, reachable parses f ->
    change_fields parses f kw false = Some g -> decl_of (f_decl g) t = Some (Fields ts) ->
    NoDup (map lower (tpk ts ++ tdf ts)).
  Proof.
    intros f kw g t ts Hr H Ht. destruct (change_result _ _ _ Hr H) as (B & C & _).
    apply decl_of_In in Ht; [|now apply decl_ok_nodup].
    unfold decl_ok in C. rewrite !andb_true_iff in C. destruct C as [_ C]. rewrite forallb_forall in C.
    specialize (C _ Ht). simpl in C. unfold decl_table_ok in C. rewrite !andb_true_iff in C.
    apply distinct_b_iff. tauto.
  Qed.

  Lemma change_no_keyword_left : forall f kw g t ts x, reachable parses f ->
    change_fields parses f kw false = Some g -> decl_of (f_decl g) t = Some (Fields ts) ->
    In x (tpk ts ++ tdf ts) -> In (lower x) kw -> exists k', In (String "_" k') kw.
  Proof.
    intros f kw g t ts x Hr H Ht Hx Hk. pose proof (inv_decl _ _ (reachable_inv _ _ Hr)) as Hd.
    destruct (change_result _ _ _ Hr H) as (B & C & _).
    apply decl_of_In in Ht; [|now apply decl_ok_nodup]. rewrite B in Ht.
    apply in_map_iff in Ht as ([t0 [|ts0]] & E & Hin); [discriminate|]. unfold ren_decl in E. simpl in E.
    injection E as -> <-. simpl in Hx. rewrite <- map_app in Hx. apply in_map_iff in Hx as (x0 & <- & Hx).
    unfold mark in Hk. destruct (mem_str (lower x0) kw) eqn:E.
    - unfold lower in Hk. simpl in Hk. eauto.
    - exfalso. apply mem_str_iff in Hk. congruence.
  Qed.
End Change.
