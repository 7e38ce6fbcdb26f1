(** * Facts about PanDatFactory.copy_from_ampl_variables. *)
From Coq Require Import ZArith Bool List String Arith Lia.
From Verif Require Import PyVal PyDict PyDictFacts ListFacts Data FindTypes FindTypesFacts FK Obj ObjFacts ObjMore ObjLive Factory FactoryFacts GraphFacts InfIO Json ObjRows
  Csv CsvTrip Frames FramesFacts FramesTrip FramesPan AmplData AmplFrom.
Import ListNotations.
Local Open Scope string_scope.
Local Open Scope list_scope.

Lemma plain_pan : forall settle dv t ts rows, wf_tschema ts -> tfields ts <> [] -> defaults_on_data ts (defaults_of dv t) ->
  pan_table settle dv t ts (PFrame (plain_frame ts rows)) = Some (plain_frame ts rows).
Proof.
  intros settle dv t ts rows W Hne D. unfold pan_table. cbn [as_frame]. set (fr := plain_frame ts rows).
  assert (forall f, In f (tfields ts) -> has_col fr f = true) as Hc by (intros f Hf; apply has_col_iff; simpl; now apply in_map).
  assert (unindex ts fr = Some fr) as ->.
  { unfold unindex. destruct (tpk ts) as [| p pk] eqn:Ep; auto. cbn [existsb]. rewrite (Hc p) by (unfold tfields; rewrite Ep; simpl; auto). reflexivity. }
  destruct (tfields ts) as [| f0 fs] eqn:Ef; [contradiction |]. rewrite <- Ef in *.
  assert (numbered fr = false) as Hn by (apply (numbered_names fr f0); simpl; apply in_map; rewrite Ef; simpl; auto).
  assert (rename ts fr = fr) as -> by (unfold rename; now rewrite Hn). rewrite Hn.
  rewrite fill_nothing; [| intros f Hf; simpl; apply in_map; apply in_or_app; right; auto].
  assert (forallb (has_col fr) (tfields ts) = true) as -> by (apply forallb_forall; auto).
  f_equal. unfold reorder. rewrite map_length.
  assert (list_eqb col_eqb (firstn (List.length (tfields ts)) (fr_cols fr)) (map CName (tfields ts)) = true) as ->; auto.
  apply cols_eq. simpl. rewrite <- (map_length CName (tfields ts)). apply firstn_all.
Qed.

Lemma ampl_obj_ok : forall sch st, wf_schema sch -> (forall t ts, In (t, ts) sch -> fine ts (st t)) -> obj_ok sch (ampl_obj sch st).
Proof.
  intros sch st W H t ts Hin. unfold table_ok, ampl_obj. rewrite (proj2 (schema_get sch t ts (proj1 W)) Hin).
  destruct (tpk ts) as [| p pk] eqn:Ep; [intros r [] |]. intros k r Hr. apply in_map_iff in Hr as ([k' ro] & E & Hr). cbn [fst snd] in E. injection E as <- <-.
  destruct (H _ _ Hin) as (_ & Ok & _). apply (proj2 Ok) in Hr as [A B]. split; auto. destruct ro as [fz c | fz l | l]; simpl in *; [tauto | destruct B as [-> _]; reflexivity | contradiction].
Qed.

Theorem pan_from_ampl : forall settle sch dv mode entries st, ampl_schema sch [] dv -> (forall t ts, In (t, ts) sch -> tfields ts <> []) ->
  copy_from_ampl sch [] dv mode entries = Some st -> (forall t ts, In (t, ts) sch -> fine ts (st t)) -> obj_settled settle sch (ampl_obj sch st) ->
  exists x, pan_copy_from_ampl settle sch [] dv mode entries = Some x /\
    forall t ts, In (t, ts) sch -> x t = plain_frame ts (full_rows (ampl_obj sch st t)).
Proof.
  intros settle sch dv mode entries st (W & _ & Ha) Hne E F St. unfold pan_copy_from_ampl. rewrite E.
  pose proof (ampl_obj_ok sch st W F) as Ok. set (d := ampl_obj sch st) in *.
  destruct (copied settle sch [] [] (Some false) false d W Ok) as (l & El & Fl & Gl); [intros ? [] | intros ? [] |]. rewrite El. rewrite app_nil_r in Fl.
  assert (forall t a, In (t, a) l -> exists ts, In (t, ts) sch /\ drop_index a = Some (PFrame (plain_frame ts (full_rows (d t))))) as Hd.
  { intros t a Hin. destruct (Gl _ _ Hin) as [[[] _] | (ts & fr & Hs & -> & Ef)]. exists ts. split; auto. cbn [drop_index].
    do 2 f_equal. rewrite copy_frame_exact in Ef by (eapply Ok; eauto). pose proof (full_rows_length ts (d t) (Ok _ _ Hs)) as L. pose proof (settled_id settle _ _ L (St _ _ Hs)) as Sd.
    rewrite Sd in Ef. unfold plain_frame.
    assert (forall rows, mkFr [] (map CName (tfields ts)) (map (fun r : list value * list value => ([], snd r)) (map (fun r : list value => ([], r)) rows)) = mkFr [] (map CName (tfields ts)) (map (fun r => ([], r)) rows)) as M
      by (intros; now rewrite map_map).
    destruct (full_rows (d t)) as [| r0 rows] eqn:Er; [injection Ef as <-; simpl; auto |].
    destruct (tpk ts) as [| p pk] eqn:Ep; [injection Ef as <-; cbn [fr_cols fr_rows]; apply (M (r0 :: rows)) |]. cbv zeta in Ef. rewrite Sd in Ef. unfold set_index, drops in Ef. injection Ef as <-.
    cbn [fr_cols fr_rows map fst snd]. rewrite !map_map. reflexivity. }
  assert (exists l', map_opt (fun tx => option_map (pair (fst tx)) (drop_index (snd tx))) l = Some l' /\ map fst l' = map fst l /\
    forall t a, In (t, a) l' -> exists ts, In (t, ts) sch /\ a = PFrame (plain_frame ts (full_rows (d t)))) as (l' & E1 & E2 & E3).
  { clear - Hd. induction l as [| [t a] l IH]; [exists []; split; [reflexivity | split; [reflexivity | intros ? ? []]] |].
    destruct IH as (l' & E1 & E2 & E3); [intros; apply Hd; simpl; auto |]. destruct (Hd t a (or_introl eq_refl)) as (ts & Hs & Ed).
    cbn [map_opt fst snd]. rewrite Ed, E1. cbn [option_map]. eexists. split; [reflexivity |]. split; [simpl; now rewrite E2 |].
    intros t' a' [X | X]; [injection X as <- <-; eauto | eauto]. }
  rewrite E1. assert (NoDup (map fst l')) as Nl by (rewrite E2, Fl; apply W).
  pose proof (pan_dat_tables settle sch dv l' W Nl) as P.
  assert (forall t ts a, In (t, ts) sch -> In (t, a) l' -> pan_table settle dv t ts a = Some (plain_frame ts (full_rows (d t)))) as Pt.
  { intros t ts a Hs Hin. destruct (E3 _ _ Hin) as (ts' & Hs' & ->).
    assert (ts' = ts) as -> by (apply (schema_get sch t ts (proj1 W)) in Hs; apply (schema_get sch t ts' (proj1 W)) in Hs'; congruence).
    apply plain_pan; [apply (proj2 W _ _ Hs) | eauto | intros f Hf; apply (Ha _ _ Hs); auto]. }
  destruct (pan_dat settle sch dv l') as [x |] eqn:Ex.
  - exists x. split; auto. intros t ts Hs. destruct (P _ _ Hs) as [P1 _].
    assert (In t (map fst l')) as Hl by (rewrite E2, Fl; now apply (in_map fst) in Hs). apply in_map_iff in Hl as ([t' a] & Et & Hl). cbn [fst] in Et. subst t'.
    destruct (E3 _ _ Hl) as (ts' & _ & Ea). specialize (P1 a Hl). rewrite (Pt _ _ _ Hs Hl) in P1. rewrite Ea in P1. specialize (P1 eq_refl). congruence.
  - exfalso. destruct P as (t & a & Hin & _ & [Hx | (ts & Hs & Hx)]).
    + apply Hx. destruct (E3 _ _ Hin) as (ts & Hs & _). now apply (in_map fst) in Hs.
    + rewrite (Pt _ _ _ Hs Hin) in Hx. discriminate.
Qed.

(** With a generic table it always raises. *)
Theorem pan_from_ampl_generic : forall settle sch generics dv mode entries, generics <> [] -> pan_copy_from_ampl settle sch generics dv mode entries = None.
Proof.
  intros settle sch generics dv mode entries Hg. unfold pan_copy_from_ampl. destruct (copy_from_ampl sch generics dv mode entries) as [st |]; auto.
  destruct (copy_to_pandas settle sch generics [] (Some false) false (ampl_obj sch st)) as [l |] eqn:E; auto.
  destruct generics as [| g gs]; [contradiction |].
  assert (In (g, PText g) l) as Hl.
  { unfold copy_to_pandas in E. destruct (map fst sch ++ g :: gs) as [| t0 names] eqn:En; [destruct (map fst sch); discriminate |]. rewrite <- En in E. cbv iota in E.
    destruct (forallb _ (map fst sch ++ g :: gs)); [| discriminate].
    assert (In g (map fst sch ++ g :: gs)) as Hg' by (apply in_or_app; simpl; auto).
    clear En. revert l E. induction (map fst sch ++ g :: gs) as [| n ns IH]; [contradiction |]. intros l E. cbn [map_opt] in E.
    match type of E with match ?a with _ => _ end = _ => destruct a as [y |] eqn:Ey end; [| discriminate].
    match type of E with match ?a with _ => _ end = _ => destruct a as [r |] eqn:Er end; [| discriminate]. injection E as <-.
    destruct Hg' as [-> | Hg']; [| right; eauto]. left. cbn [mem_str existsb] in Ey. rewrite String.eqb_refl in Ey. cbn [orb option_map] in Ey. now injection Ey. }
  assert (map_opt (fun tx => option_map (pair (fst tx)) (drop_index (snd tx))) l = None) as ->; auto.
  clear - Hl. induction l as [| x l IH]; [contradiction |]. cbn [map_opt]. destruct Hl as [-> | Hl]; [reflexivity |]. rewrite IH by auto. now destruct (option_map _ _).
Qed.
