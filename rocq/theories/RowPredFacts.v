(** * Facts about row predicates. *)
From Coq Require Import ZArith Bool List String Arith Lia.
From Verif Require Import PyVal PyValFacts PyDict PyDictFacts ListFacts TypeDict Data FindTypes FindTypesFacts FK Factory
  InfIO Params RowPred.
Import ListNotations.
Local Open Scope string_scope.
Local Open Scope list_scope.

(** ** Keys of the report *)

Lemma tpn_refl a : tpn_eqb a a = true.
Proof. unfold tpn_eqb. now rewrite String.eqb_refl, pyeq_refl. Qed.
Lemma tpn_sym a b : tpn_eqb a b = tpn_eqb b a.
Proof. unfold tpn_eqb. now rewrite String.eqb_sym, pyeq_sym. Qed.
Lemma tpn_trans a b c : tpn_eqb a b = true -> tpn_eqb b c = true -> tpn_eqb a c = true.
Proof.
  unfold tpn_eqb. rewrite !andb_true_iff. intros [H1 H2] [H3 H4]. split.
  - eapply string_eqb_trans; eauto.
  - eapply pyeq_trans; eauto.
Qed.
Lemma tpn_cong a b c : tpn_eqb a b = true -> tpn_eqb a c = tpn_eqb b c.
Proof.
  intros H. destruct (tpn_eqb a c) eqn:E, (tpn_eqb b c) eqn:F; auto.
  - rewrite tpn_sym in H. now rewrite (tpn_trans _ _ _ H E) in F.
  - now rewrite (tpn_trans _ _ _ H F) in E.
Qed.

(** ** Actions: what a run does to the report *)

Inductive act : Type :=
| ARaise : act
| AAll : tpn -> string -> act
| ARow : tpn -> rowid * option string -> act.

Definition rstate : Type := (list (tpn * entry) * nat * bool)%type.

Definition record (rtn : list (tpn * entry)) (a : act) : list (tpn * entry) :=
  match a with
  | ARaise => rtn
  | AAll tp m => dset tpn_eqb rtn tp (EAll m)
  | ARow tp x => add_row rtn tp x
  end.

Definition do_act (mx : num) (a : act) (s : rstate) : rstate * bool :=
  let '(rtn, c, ra) := s in
  match a with
  | ARaise => ((rtn, c, true), true)
  | _ => ((record rtn a, S c, ra), trips mx (S c))
  end.

Lemma run_inf acts : forall rtn c,
  for_each (do_act PInf) acts (rtn, c, false) =
  if existsb (fun a => match a with ARaise => true | _ => false end) acts
  then ((fst (fst (fst (for_each (do_act PInf) acts (rtn, c, false)))),
         snd (fst (fst (for_each (do_act PInf) acts (rtn, c, false)))), true), true)
  else ((fold_left record acts rtn, c + List.length acts, false), false).
Proof.
  induction acts as [|a acts IH]; intros rtn c; cbn [for_each existsb fold_left List.length].
  - now rewrite Nat.add_0_r.
  - destruct a as [|tp m|tp x]; [reflexivity| |].
    all: cbn [do_act orb]; change (trips PInf (S c)) with false; cbv iota;
         rewrite IH; destruct (existsb _ acts); [reflexivity|];
         replace (c + S (List.length acts)) with (S c + List.length acts) by lia; reflexivity.
Qed.

Lemma run_bounded mx n acts : (forall c, trips mx c = Nat.leb n c) -> forall rtn c, c < n ->
  exists rtn' c' b, for_each (do_act mx) acts (rtn, c, false) =
    ((rtn', c', existsb (fun a => match a with ARaise => true | _ => false end) (firstn (n - c) acts)), b) /\
    (existsb (fun a => match a with ARaise => true | _ => false end) (firstn (n - c) acts) = false ->
     rtn' = fold_left record (firstn (n - c) acts) rtn).
Proof.
  intros Ht. induction acts as [|a acts IH]; intros rtn c Hc.
  - rewrite firstn_nil. exists rtn, c, false. auto.
  - replace (n - c) with (S (n - S c)) by lia. cbn [for_each firstn existsb fold_left].
    destruct a as [|tp m|tp x].
    + exists rtn, c, true. split; auto. discriminate.
    + cbn [do_act orb]. rewrite Ht. destruct (Nat.leb n (S c)) eqn:E.
      * apply Nat.leb_le in E. replace (n - S c) with 0 by lia. cbn. eexists _, _, true. split; reflexivity.
      * apply Nat.leb_gt in E. apply IH. lia.
    + cbn [do_act orb]. rewrite Ht. destruct (Nat.leb n (S c)) eqn:E.
      * apply Nat.leb_le in E. replace (n - S c) with 0 by lia. cbn. eexists _, _, true. split; reflexivity.
      * apply Nat.leb_gt in E. apply IH. lia.
Qed.

(** ** The report of a clean list of actions *)

Definition act_at (tp : tpn) (a : act) : bool :=
  match a with ARaise => false | AAll k _ => tpn_eqb k tp | ARow k _ => tpn_eqb k tp end.

Definition at_tp (tp : tpn) (acts : list act) : list act := filter (act_at tp) acts.

Definition rows_in (acts : list act) : list (rowid * option string) :=
  flat_map (fun a => match a with ARow _ x => [x] | _ => [] end) acts.

(** For each pair: one AAll, or only ARows. *)
Definition clean (acts : list act) : Prop :=
  ~ In ARaise acts /\
  forall tp, (exists k m, at_tp tp acts = [AAll k m]) \/ (forall a, In a (at_tp tp acts) -> exists k x, a = ARow k x).

Definition entry_of (acts : list act) : option entry :=
  match acts with
  | [] => None
  | AAll _ m :: _ => Some (EAll m)
  | _ => Some (ERows (rows_in acts))
  end.

Lemma clean_app l a : clean (l ++ [a]) -> clean l.
Proof.
  intros [H1 H2]. split; [intros H; apply H1, in_or_app; auto|].
  intros tp. destruct (H2 tp) as [(k & m & E)|E].
  - unfold at_tp in *. rewrite filter_app in E.
    destruct (filter (act_at tp) l) as [|x [|y l']] eqn:F.
    + right. intros a0 [].
    + cbn in E. destruct (act_at tp a); cbn in E; [discriminate|]. injection E as ->. eauto.
    + discriminate.
  - right. intros a0 Ha. apply E. unfold at_tp in *. rewrite filter_app. apply in_or_app. auto.
Qed.

Lemma clean_prefix l l' : clean (l ++ l') -> clean l.
Proof.
  revert l. induction l' as [|a l' IH]; intros l H; [now rewrite app_nil_r in H|].
  apply (clean_app l a). apply IH. now rewrite <- app_assoc.
Qed.

Lemma record_get acts tp : clean acts ->
  dget tpn_eqb (fold_left record acts []) tp = entry_of (at_tp tp acts).
Proof.
  revert tp. induction acts as [|a acts IH] using rev_ind; intros tp Hc; [reflexivity|].
  pose proof (clean_app _ _ Hc) as Hc'.
  rewrite fold_left_app. cbn [fold_left]. unfold at_tp. rewrite filter_app. cbn [filter].
  change (filter (act_at tp) acts) with (at_tp tp acts).
  destruct a as [|k m|k x]; cbn [record act_at].
  - exfalso. apply (proj1 Hc), in_or_app. right. now left.
  - destruct (tpn_eqb k tp) eqn:E.
    + rewrite (dget_dset_eq tpn_eqb tpn_refl tpn_sym tpn_trans) by exact E.
      destruct (proj2 Hc tp) as [(k' & m' & F)|F].
      * unfold at_tp in F. rewrite filter_app in F. cbn in F. rewrite E in F.
        change (filter (act_at tp) acts) with (at_tp tp acts) in F.
        destruct (at_tp tp acts) as [|y [|z l]]; cbn in F; try discriminate. reflexivity.
      * destruct (F (AAll k m)) as (k' & x' & Q); [|discriminate].
        unfold at_tp. rewrite filter_app. apply in_or_app. right. cbn. rewrite E. now left.
    + rewrite (dget_dset_other tpn_eqb tpn_sym tpn_trans) by exact E.
      rewrite IH by exact Hc'. now rewrite app_nil_r.
  - assert (Hk : dget tpn_eqb (fold_left record acts []) k = entry_of (at_tp k acts)) by (now apply IH).
    assert (Hno : forall k' m', ~ In (AAll k' m') (at_tp k acts)).
    { intros k' m' Hin. destruct (proj2 Hc k) as [(k2 & m2 & F)|F].
      - unfold at_tp in F. rewrite filter_app in F. cbn in F. rewrite tpn_refl in F.
        change (filter (act_at k) acts) with (at_tp k acts) in F.
        destruct (at_tp k acts) as [|y [|z l]]; cbn in F; discriminate.
      - destruct (F (AAll k' m')) as (k2 & x' & Q); [|discriminate].
        unfold at_tp. rewrite filter_app. apply in_or_app. now left. }
    assert (Hnr : ~ In ARaise (at_tp k acts)).
    { intros Hin. apply filter_In in Hin as [Hin _]. now apply (proj1 Hc'). }
    assert (Hadd : add_row (fold_left record acts []) k x =
                   dset tpn_eqb (fold_left record acts []) k (ERows (rows_in (at_tp k acts) ++ [x]))).
    { unfold add_row. rewrite Hk. destruct (at_tp k acts) as [|[|k' m'|k' x'] l]; cbn [entry_of]; auto.
      exfalso. apply (Hno k' m'). now left. }
    rewrite Hadd.
    destruct (tpn_eqb k tp) eqn:E.
    + rewrite (dget_dset_eq tpn_eqb tpn_refl tpn_sym tpn_trans) by exact E.
      assert (at_tp tp acts = at_tp k acts) as ->.
      { unfold at_tp. apply filter_ext. intros [|k' m'|k' x']; cbn; auto.
        - now rewrite (tpn_sym k' tp), (tpn_sym k' k), (tpn_cong tp k) by (now rewrite tpn_sym).
        - now rewrite (tpn_sym k' tp), (tpn_sym k' k), (tpn_cong tp k) by (now rewrite tpn_sym). }
      assert (Hr : rows_in (at_tp k acts ++ [ARow k x]) = rows_in (at_tp k acts) ++ [x]).
      { unfold rows_in. rewrite flat_map_app. reflexivity. }
      destruct (at_tp k acts) as [|[|k' m'|k' x'] l]; cbn [entry_of app].
      * reflexivity.
      * exfalso. apply Hnr. now left.
      * exfalso. apply (Hno k' m'). now left.
      * f_equal. f_equal. now rewrite <- Hr.
    + rewrite (dget_dset_other tpn_eqb tpn_sym tpn_trans) by exact E.
      rewrite IH by exact Hc'. now rewrite app_nil_r.
Qed.

(** ** Counting *)

Definition size (e : entry) : nat := match e with EAll _ => 1 | ERows l => List.length l end.
Definition total (rep : list (tpn * entry)) : nat := list_sum (map (fun kv => size (snd kv)) rep).

Lemma total_dset rep k e :
  total (dset tpn_eqb rep k e) + match dget tpn_eqb rep k with Some o => size o | None => 0 end = total rep + size e.
Proof.
  assert (Hc : forall a (b : entry) l, total ((a, b) :: l) = size b + total l) by reflexivity.
  induction rep as [|[k' e'] rep IH]; cbn [dset dget].
  - rewrite Hc. cbn. lia.
  - destruct (tpn_eqb k' k); rewrite !Hc; lia.
Qed.

Lemma total_record acts : clean acts -> total (fold_left record acts []) = List.length acts.
Proof.
  induction acts as [|a acts IH] using rev_ind; intros Hc; [reflexivity|].
  pose proof (clean_app _ _ Hc) as Hc'. specialize (IH Hc').
  rewrite fold_left_app, app_length. cbn [fold_left List.length]. destruct a as [|k m|k x]; cbn [record].
  - exfalso. apply (proj1 Hc), in_or_app. right. now left.
  - pose proof (total_dset (fold_left record acts []) k (EAll m)) as H.
    rewrite (record_get acts k Hc') in H. cbn [size] in H.
    assert (at_tp k acts = []) as E.
    { destruct (proj2 Hc k) as [(k' & m' & F)|F].
      - unfold at_tp in F. rewrite filter_app in F. cbn in F. rewrite tpn_refl in F.
        change (filter (act_at k) acts) with (at_tp k acts) in F.
        destruct (at_tp k acts) as [|y [|z l]]; cbn in F; try discriminate. reflexivity.
      - destruct (F (AAll k m)) as (k' & x' & Q); [|discriminate].
        unfold at_tp. rewrite filter_app. apply in_or_app. right. cbn. rewrite tpn_refl. now left. }
    rewrite E in H. cbn in H. lia.
  - unfold add_row. rewrite (record_get acts k Hc').
    destruct (proj2 Hc k) as [(k' & m' & F)|F].
    { exfalso. unfold at_tp in F. rewrite filter_app in F. cbn in F. rewrite tpn_refl in F.
      change (filter (act_at k) acts) with (at_tp k acts) in F.
      destruct (at_tp k acts) as [|y [|z l]]; cbn in F; discriminate. }
    assert (F' : forall a, In a (at_tp k acts) -> exists k' x', a = ARow k' x').
    { intros a Ha. apply F. unfold at_tp. rewrite filter_app. apply in_or_app. now left. }
    destruct (at_tp k acts) as [|a l] eqn:E.
    + cbn [entry_of]. pose proof (total_dset (fold_left record acts []) k (ERows [x])) as H.
      rewrite (record_get acts k Hc'), E in H. cbn in H. lia.
    + destruct (F' a (or_introl eq_refl)) as (k' & x' & ->). cbn [entry_of].
      pose proof (total_dset (fold_left record acts []) k (ERows (rows_in (ARow k' x' :: l) ++ [x]))) as H.
      rewrite (record_get acts k Hc'), E in H. cbn [entry_of size] in H. rewrite app_length in H. cbn [List.length] in *. lia.
Qed.
