(** * [good_tic_dat_object] and [good_tic_dat_table] are exact. *)
From Coq Require Import ZArith Bool List String Arith Lia.
From Verif Require Import PyVal PyDict PyDictFacts Data FindTypes FK GraphFacts Obj ObjFacts ObjMore InfIO Good.
Import ListNotations.
Local Open Scope string_scope.
Local Open Scope list_scope.

(** A dict with exactly these fields. *)
Definition full_dict (fields : list string) (x : rowin) : Prop :=
  exists l, x = RDict l /\ forall f, In f (map fst l) <-> In f fields.

(** A keyed table is a dict with keys of the right length, one without key a
    container; the rows are dicts with exactly the data fields. *)
Definition strict_shape (ts : tschema) (inp : tablein) : Prop :=
  match tpk ts, inp with
  | [], TRows rows => forall x, In x rows -> full_dict (tdf ts) x
  | [], TDict l => l = []
  | _ :: _, TDict l => forall k x, In (k, x) l -> key_shape ts k /\ full_dict (tdf ts) x
  | _ :: _, TRows _ => False
  end.

(** The verdict is False exactly if there is a message. *)
Definition told (v : verdict) : Prop := fst v = false <-> snd v <> [].
Lemma told_good : told good.
Proof. split; [discriminate | intros H; now contradiction H]. Qed.
Lemma told_bad : forall m, told (bad m).
Proof. intros m. split; [discriminate | reflexivity]. Qed.
#[local] Hint Resolve told_good told_bad : core.

Lemma check_told : forall strict fields rows, told (check_rows strict fields rows).
Proof. intros. unfold check_rows. repeat match goal with |- told (if ?b then _ else _) => destruct b end; auto. Qed.

Lemma fields_in : forall fields (l : list (string * value)), forallb (fun fv => mem_str (fst fv) fields) l = true <-> forall f, In f (map fst l) -> In f fields.
Proof.
  intros fields l. rewrite forallb_forall. split.
  - intros H f Hf. apply in_map_iff in Hf as (fv & <- & Hin). now apply mem_str_iff, H.
  - intros H fv Hin. apply mem_str_iff, H. now apply in_map.
Qed.

Lemma exact_fields_iff : forall fields x, exact_fields fields x = true <-> full_dict fields x.
Proof.
  intros fields [l | l | v]; cbn [exact_fields]; try (split; [discriminate | intros (? & E & _); discriminate]).
  rewrite andb_true_iff, fields_in, forallb_forall. split.
  - intros [H1 H2]. exists l. split; auto. intros f. split; auto. intros Hf. now apply mem_str_iff, H2.
  - intros (l' & E & H). injection E as <-. split; [intros f; apply H |]. intros f Hf. now apply mem_str_iff, H.
Qed.

Lemma check_generous : forall fields rows, fst (check_rows false fields rows) = good_rows fields rows.
Proof.
  intros fields rows. unfold check_rows, good_rows. induction rows as [| x rows IH]; [reflexivity |]. cbn [forallb existsb].
  destruct x as [l | l | v].
  - destruct (forallb (fun fv => mem_str (fst fv) fields) l); cbn [andb negb fst bad]; auto.
  - cbn [orb]. destruct (Nat.eqb (List.length l) (List.length fields)); cbn [andb]; auto.
    destruct (negb (forallb _ rows)); reflexivity.
  - cbn [orb andb]. destruct (Nat.eqb (List.length fields) 1); cbn [andb negb] in *.
    + rewrite andb_false_r in IH. exact IH.
    + repeat match goal with |- fst (if ?b then _ else _) = _ => destruct b end; reflexivity.
Qed.

Lemma check_strict : forall fields rows, fst (check_rows true fields rows) = true <-> forall x, In x rows -> full_dict fields x.
Proof.
  intros fields rows. unfold check_rows. split.
  - destruct (negb (forallb _ rows)); [discriminate |]. destruct (negb (forallb _ rows)); [discriminate |]. destruct (_ && _); [discriminate |].
    destruct (existsb _ rows); [discriminate |]. destruct (forallb (exact_fields fields) rows) eqn:E; [| discriminate].
    intros _ x Hx. rewrite forallb_forall in E. now apply exact_fields_iff, E.
  - intros H.
    assert (forallb (fun x => match x with RDict l => forallb (fun fv => mem_str (fst fv) fields) l | _ => true end) rows = true) as ->.
    { apply forallb_forall. intros x Hx. destruct (H x Hx) as (l & -> & Hl). apply fields_in. intros f. apply Hl. }
    assert (forallb (fun x => match x with RSeq l => Nat.eqb (List.length l) (List.length fields) | _ => true end) rows = true) as ->.
    { apply forallb_forall. intros x Hx. now destruct (H x Hx) as (l & -> & Hl). }
    assert (existsb (fun x => match x with RAtom _ => true | _ => false end) rows = false) as ->.
    { apply not_true_iff_false. rewrite existsb_exists. intros (x & Hx & E). destruct (H x Hx) as (l & -> & _). discriminate. }
    assert (existsb (fun x => match x with RDict _ => false | _ => true end) rows = false) as ->.
    { apply not_true_iff_false. rewrite existsb_exists. intros (x & Hx & E). destruct (H x Hx) as (l & -> & _). discriminate. }
    assert (forallb (exact_fields fields) rows = true) as ->; [| reflexivity].
    apply forallb_forall. intros x Hx. apply exact_fields_iff. auto.
Qed.

Lemma keylen_shape : forall ts k, keylen k = List.length (tpk ts) <-> key_shape ts k.
Proof. intros ts [v | l]; unfold keylen, key_shape; split; auto. Qed.

Lemma keys_checked : forall ts (l : list (pkey * rowin)), forallb (fun kr => Nat.eqb (keylen (fst kr)) (List.length (tpk ts))) l = true <->
  forall k x, In (k, x) l -> key_shape ts k.
Proof.
  intros ts l. rewrite forallb_forall. split.
  - intros H k x Hin. apply keylen_shape. apply Nat.eqb_eq. exact (H _ Hin).
  - intros H [k x] Hin. apply Nat.eqb_eq, keylen_shape. eapply H; eauto.
Qed.

(** ** Tables *)

Theorem table_told : forall strict name ts a v, good_table strict name ts a = Ret v -> told v.
Proof.
  intros strict name ts a v H. unfold good_table in H. destruct a as [| | | inp]; try (injection H as <-; auto; fail).
  - destruct (tpk ts); [discriminate |]. injection H as <-. destruct strict; auto.
  - destruct (tpk ts) as [| p0 pk0]; [injection H as <-; apply check_told |]. destruct inp as [l | rows]; injection H as <-.
    + destruct l as [| kx l]; auto. destruct (forallb _ _); auto using check_told.
    + destruct strict; auto. destruct (tdf ts); auto. destruct (forallb _ _); auto.
Qed.

Theorem table_strict : forall name ts inp, exists v, good_table true name ts (ATable inp) = Ret v /\ (fst v = true <-> strict_shape ts inp).
Proof.
  intros name ts inp. unfold good_table, strict_shape. destruct (tpk ts) as [| p pk] eqn:Ep.
  - eexists. split; [reflexivity |]. rewrite check_strict. destruct inp as [l | rows]; [| tauto]. split.
    + intros H. destruct l as [| [k x] l]; auto. destruct (H (key_as_row k)) as (e & E & _); [simpl; auto |]. destruct k; discriminate.
    + intros -> x [].
  - destruct inp as [l | rows]; (eexists; split; [reflexivity |]).
    + destruct l as [| kx l]; [split; auto; intros _ k x [] |]. rewrite <- Ep.
      destruct (forallb (fun kr => Nat.eqb (keylen (fst kr)) (List.length (tpk ts))) (kx :: l)) eqn:E.
      * rewrite check_strict. split.
        -- intros H k x Hin. split; [eapply (proj1 (keys_checked ts _) E); eauto |]. apply H. change x with (snd (k, x)). now apply in_map.
        -- intros H x Hx. apply in_map_iff in Hx as ([k y] & <- & Hin). exact (proj2 (H k y Hin)).
      * split; [discriminate |]. intros H. exfalso. apply not_true_iff_false in E. apply E. apply keys_checked. intros k x Hin. exact (proj1 (H k x Hin)).
    + split; [discriminate | tauto].
Qed.

(** What [row_checking="generous"] accepts. *)
Theorem table_generous : forall name ts inp, exists v, good_table false name ts (ATable inp) = Ret v /\
  (fst v = true <-> match tpk ts, inp with
                    | _ :: _, TRows rows => tdf ts = [] /\ forall x, In x rows -> elem_len x = List.length (tpk ts)
                    | _, _ => good_input ts inp
                    end).
Proof.
  intros name ts inp. unfold good_table, good_input. destruct (tpk ts) as [| p pk] eqn:Ep.
  - eexists. split; [reflexivity |]. rewrite check_generous, good_rows_iff. destruct inp as [l | rows]; [| tauto]. split.
    + intros H k x Hin. apply H. apply in_map_iff. exists (k, x). auto.
    + intros H x Hx. apply in_map_iff in Hx as ([k y] & <- & Hin). exact (H k y Hin).
  - destruct inp as [l | rows]; (eexists; split; [reflexivity |]).
    + destruct l as [| kx l]; [split; auto; intros _ k x [] |]. rewrite <- Ep.
      destruct (forallb (fun kr => Nat.eqb (keylen (fst kr)) (List.length (tpk ts))) (kx :: l)) eqn:E.
      * rewrite check_generous, good_rows_iff. split.
        -- intros H k x Hin. split; [eapply (proj1 (keys_checked ts _) E); eauto |]. apply H. change x with (snd (k, x)). now apply in_map.
        -- intros H x Hx. apply in_map_iff in Hx as ([k y] & <- & Hin). exact (proj2 (H k y Hin)).
      * split; [discriminate |]. intros H. exfalso. apply not_true_iff_false in E. apply E. apply keys_checked. intros k x Hin. exact (proj1 (H k x Hin)).
    + destruct (tdf ts); [| split; [discriminate | intros [X _]; discriminate]].
      destruct (forallb _ rows) eqn:E.
      * split; auto. intros _. split; auto. intros x Hx. rewrite forallb_forall in E. now apply Nat.eqb_eq, E.
      * split; [discriminate |]. intros [_ H]. exfalso. apply not_true_iff_false in E. apply E. apply forallb_forall. intros x Hx. now apply Nat.eqb_eq, H.
Qed.

(** What is accepted can be converted, unless it is a container of dicts. *)
Theorem generous_builds : forall dv name ts inp v, NoDup (tdf ts) ->
  good_table false name ts (ATable inp) = Ret v -> fst v = true ->
  (forall p pk rows l, tpk ts = p :: pk -> inp = TRows rows -> ~ In (RDict l) rows) ->
  exists tb, init_one dv name ts inp = Some tb.
Proof.
  intros dv name ts inp v N H Hv Hd. apply init_one_some; auto. destruct (table_generous name ts inp) as (v' & E & Hiff).
  rewrite H in E. injection E as <-. apply Hiff in Hv. clear Hiff H. unfold good_input in *. destruct (tpk ts) as [| p pk] eqn:Ep; [exact Hv |].
  destruct inp as [l | rows]; [exact Hv |]. destruct Hv as [Ed Hl]. rewrite Ed, app_nil_r. intros [l | l | w] Hx.
  - exfalso. eapply Hd; eauto.
  - specialize (Hl _ Hx). exact Hl.
  - specialize (Hl _ Hx). cbn [elem_len] in Hl. cbn [has_shape]. auto.
Qed.

(** What the strict check accepts is an object of the model, with the cells of
    the dicts. *)
Theorem strict_builds : forall dv t ts inp, NoDup (tdf ts) -> strict_shape ts inp ->
  exists tb, init_one dv t ts inp = Some tb /\ table_ok ts tb /\ holds dv t ts inp tb.
Proof.
  intros dv t ts inp N H. assert (good_input ts inp) as G.
  { unfold strict_shape, good_input in *. destruct (tpk ts) as [| p0 pk0].
    - destruct inp as [l | rows]; [subst l; intros k x [] |]. intros x Hx. destruct (H x Hx) as (l & -> & Hl). cbn [has_shape].
      intros f w Hf. apply Hl. change f with (fst (f, w)). now apply in_map.
    - destruct inp as [l0 | rows]; [| contradiction]. intros k x Hx. destruct (H k x Hx) as (K & l & -> & Hl). split; auto. cbn [has_shape].
      intros f w Hf. apply Hl. change f with (fst (f, w)). now apply in_map. }
  destruct (proj2 (init_one_some dv t ts inp N)) as (tb & E); auto. exists tb. split; auto. pose proof (init_one_holds dv t ts inp tb N E) as Hh.
  split; auto. clear E. unfold holds, table_ok, good_input in *. destruct (tpk ts) as [| p0 pk0] eqn:Ep.
  - destruct inp as [kx | rows]; destruct Hh as (l & -> & F); intros r Hr; destruct (Forall2_In_r _ _ _ _ F Hr) as (x & _ & Hf); eapply fits_length; eauto.
  - destruct inp as [kx | rows].
    + destruct Hh as (l & -> & F). intros k r Hr. destruct (Forall2_In_r _ _ _ _ F Hr) as ([k' x] & Hx & Hk & Hf). cbn [fst snd] in *. subst k'.
      split; [exact (proj1 (G k x Hx)) | eapply fits_length; eauto].
    + unfold strict_shape in H. rewrite Ep in H. contradiction.
Qed.

(** ** Objects *)

Lemma from_false : forall strict sch x v, fst v = false -> snd v <> [] -> exists w, good_from strict sch x v = Ret w /\ fst w = false /\ snd w <> [].
Proof.
  intros strict sch x. induction sch as [| [t ts] sch IH]; intros v Hv Hm; cbn [good_from]; [eauto |].
  rewrite Hv. destruct (x t); auto; eexists; (split; [reflexivity |]); split; auto; cbn [snd]; intros E; apply app_eq_nil in E as [_ E]; discriminate.
Qed.

Lemma from_told : forall strict sch x v w, told v -> good_from strict sch x v = Ret w -> told w.
Proof.
  intros strict sch x. induction sch as [| [t ts] sch IH]; intros v w Hv H; cbn [good_from] in H; [now injection H as <- |].
  assert (forall m, told (false, snd v ++ [m])) as T.
  { intros m. split; auto. intros _ E. apply app_eq_nil in E as [_ E]. discriminate. }
  destruct (x t) as [| | | inp] eqn:Ex; try (injection H as <-; auto; fail).
  - destruct (fst v) eqn:Ev; [| eauto]. destruct (good_table strict t ts AOther) as [u |] eqn:E; [| discriminate]. eapply IH; [| exact H].
    apply table_told in E. unfold told in *. cbn [fst snd]. rewrite Ev in Hv. assert (snd v = []) as ->.
    { destruct (snd v); auto. destruct Hv as [_ Hv]. discriminate Hv; discriminate. }
    cbn [app]. destruct (snd u); cbn [map]; rewrite E; split; intros X; auto; try discriminate; now contradiction X.
  - destruct (fst v) eqn:Ev; [| eauto]. destruct (good_table strict t ts (ATable inp)) as [u |] eqn:E; [| discriminate]. eapply IH; [| exact H].
    apply table_told in E. unfold told in *. cbn [fst snd]. rewrite Ev in Hv. assert (snd v = []) as ->.
    { destruct (snd v); auto. destruct Hv as [_ Hv]. discriminate Hv; discriminate. }
    cbn [app]. destruct (snd u); cbn [map]; rewrite E; split; intros X; auto; try discriminate; now contradiction X.
Qed.

Theorem object_told : forall strict sch x w, good_object strict sch x = Ret w -> told w.
Proof. intros strict sch x w H. exact (from_told strict sch x good w told_good H). Qed.

(** The objects accepted, for both values of [row_checking]. *)
Theorem object_iff : forall strict sch x,
  (exists w, good_object strict sch x = Ret w /\ fst w = true) <->
  forall t ts, In (t, ts) sch -> exists inp v, x t = ATable inp /\ good_table strict t ts (x t) = Ret v /\ fst v = true.
Proof.
  intros strict sch x. unfold good_object.
  assert (forall v, fst v = true -> snd v = [] -> ((exists w, good_from strict sch x v = Ret w /\ fst w = true) <->
    forall t ts, In (t, ts) sch -> exists inp v, x t = ATable inp /\ good_table strict t ts (x t) = Ret v /\ fst v = true)) as H; [| now apply H].
  induction sch as [| [t ts] sch IH]; intros v Hv Hm; cbn [good_from].
  - split; [intros _ t ts [] | eauto].
  - rewrite Hv, Hm. cbn [app]. destruct (x t) as [| | | inp] eqn:Ex.
    + split; [intros (w & E & F); injection E as <-; discriminate |]. intros H. destruct (H t ts) as (i & u & E & _); [simpl; auto |]. congruence.
    + split; [intros (w & E & F); injection E as <-; discriminate |]. intros H. destruct (H t ts) as (i & u & E & _); [simpl; auto |]. congruence.
    + split; [| intros H; destruct (H t ts) as (i & u & E & _); [simpl; auto |]; congruence].
      intros (w & E & F). exfalso. destruct (good_table strict t ts AOther) as [u |] eqn:Eu; [| discriminate].
      assert (fst u = false) as Hu.
      { unfold good_table in Eu. destruct (tpk ts); [discriminate |]. injection Eu as <-. destruct strict; reflexivity. }
      pose proof (table_told _ _ _ _ _ Eu) as T. apply T in Hu as Hu'.
      destruct (from_false strict sch x (fst u, map (fun m => append t (append " : " m)) (snd u))) as (w' & E' & F' & _); auto.
      { cbn [snd]. destruct (snd u); [contradiction | discriminate]. }
      rewrite E in E'. injection E' as <-. congruence.
    + destruct (good_table strict t ts (ATable inp)) as [u |] eqn:Eu.
      * destruct (fst u) eqn:Hu.
        -- assert (snd u = []) as Hs.
           { pose proof (table_told _ _ _ _ _ Eu) as T. destruct (snd u) eqn:Es; auto. unfold told in T. rewrite Es in T. destruct T as [_ T]. rewrite T in Hu; discriminate. }
           rewrite Hs. cbn [map]. etransitivity; [apply IH; reflexivity |]. split; intros H t' ts' Hin.
           ++ destruct Hin as [E | Hin]; [injection E as <- <-; rewrite Ex; eauto | auto].
           ++ apply H. simpl; auto.
        -- split.
           ++ intros (w & E & F). exfalso. pose proof (table_told _ _ _ _ _ Eu) as T. apply T in Hu as Hu'.
              destruct (from_false strict sch x (false, map (fun m => append t (append " : " m)) (snd u))) as (w' & E' & F' & _); auto.
              { cbn [snd]. destruct (snd u); [contradiction | discriminate]. }
              rewrite E in E'. injection E' as <-. congruence.
           ++ intros H. destruct (H t ts) as (i & u' & _ & E & F); [simpl; auto |]. rewrite Ex, Eu in E. injection E as <-. congruence.
      * split; [intros (w & E & _); discriminate |]. intros H. destruct (H t ts) as (i & u' & _ & E & F); [simpl; auto |]. rewrite Ex, Eu in E. discriminate.
Qed.

(** No exception unless some table without a key is no container. *)
Theorem object_raises : forall strict sch x, good_object strict sch x = Raise -> exists t ts, In (t, ts) sch /\ tpk ts = [] /\ x t = AOther.
Proof.
  intros strict sch x. unfold good_object. generalize good. induction sch as [| [t ts] sch IH]; intros v H; cbn [good_from] in H; [discriminate |].
  assert (forall v', good_from strict sch x v' = Raise -> exists t' ts', In (t', ts') ((t, ts) :: sch) /\ tpk ts' = [] /\ x t' = AOther) as IH'.
  { intros v' Hv'. destruct (IH _ Hv') as (t' & ts' & A & B). exists t', ts'. simpl. auto. }
  destruct (x t) as [| | | inp] eqn:Ex; try discriminate; (destruct (fst v); [| eauto]).
  - cbn [good_table] in H. destruct (tpk ts) eqn:Ep; [exists t, ts; simpl; auto | eauto].
  - destruct (good_table strict t ts (ATable inp)) as [u |] eqn:E; [eauto |]. exfalso. unfold good_table in E.
    destruct (tpk ts); [discriminate |]. destruct inp; discriminate.
Qed.
