(** * PanDat replacements: the whole call. *)
From Coq Require Import ZArith Bool List String Arith Lia.
From Verif Require Import PyVal PyValFacts PyDict PyDictFacts ListFacts TypeDict Data FindTypes FindTypesFacts
  FK PanFKFacts PanTypes PanTypesFacts.
Import ListNotations.

Section Replace.
  Variable parses : value -> bool.

  Lemma real_distinct : forall dv rv l acc rr, keys_distinct tf_eqb (map fst acc) ->
    pan_real l dv rv acc = Some rr -> keys_distinct tf_eqb (map fst rr).
  Proof.
    intros dv rv. induction l as [| [tf dt] l IH]; intros acc rr Ha H; simpl in H.
    - now injection H as <-.
    - destruct (dmem tf_eqb rv tf || _); [| eauto].
      destruct (dget2 dv (fst tf) (snd tf)); [| discriminate].
      refine (IH _ _ _ H). now apply (keys_distinct_dset tf_eqb).
  Qed.

  Lemma in_keys_failing : forall sch tys d rep t f, wf_schema sch -> wf_types sch tys -> wf_pdat sch d ->
    pan_find_types parses sch tys d PInf = Some rep ->
    (in_keys rep t f = true <-> exists i v, pan_failing parses sch tys d t f i v).
  Proof.
    intros sch tys d rep t f Hs Ht Hd H. destruct (pan_find_exact_types _ _ _ _ _ Hs Ht Hd H) as (_ & A & B).
    unfold in_keys. rewrite existsb_exists. split.
    - intros ([k fl] & Hin & E). apply tf_eqb_eq in E. simpl in E. subst k.
      destruct (A _ _ _ Hin) as [_ Htr]. apply In_nth_error in Htr as (i & Hi). exists i.
      apply B. exists fl. auto.
    - intros (i & v & Hf). assert (pan_flagged rep t f i) as (fl & Hin & _) by (apply B; eauto).
      exists ((t, f), fl). split; auto. apply tf_eqb_refl.
  Qed.

  Lemma dmem_in_keys : forall (rep : pflags) tf, dmem tf_eqb rep tf = in_keys rep (fst tf) (snd tf).
  Proof.
    intros rep [t f]. unfold dmem, in_keys. simpl. induction rep as [| [k fl] rep IH]; simpl; auto.
    destruct (tf_eqb k (t, f)); auto.
  Qed.

  Lemma failing_unique_type : forall sch tys t f dt dt', wf_types sch tys ->
    enforced sch tys t f dt -> enforced sch tys t f dt' -> dt = dt'.
  Proof.
    intros sch tys t f dt dt' Ht H1 H2. rewrite <- tmp_types_get in H1, H2 by auto. congruence.
  Qed.

  Lemma real_replacement : forall sch tys dv rv rr t f x, wf_types sch tys ->
    pan_real (typed (tmp_types sch tys)) dv rv [] = Some rr ->
    (dget tf_eqb rr (t, f) = Some x <->
     (exists dt, enforced sch tys t f dt) /\ dget2 dv t f <> None /\ pan_replacement dv rv t f x).
  Proof.
    intros sch tys dv rv rr t f x Ht H.
    rewrite (proj2 (pan_real_spec dv rv _ _) rr H (t, f)).
    assert (existsb (fun e => tf_eqb (fst e) (t, f)) (typed (tmp_types sch tys)) = true <->
            exists dt, enforced sch tys t f dt) as He.
    { rewrite existsb_exists. split.
      - intros ([k dt] & Hin & E). apply tf_eqb_eq in E. simpl in E. subst k. exists dt. now apply typed_enforced.
      - intros (dt & E). exists ((t, f), dt). split; [now apply typed_enforced | apply tf_eqb_refl]. }
    unfold lookup, dget_or, pan_replacement. simpl.
    destruct (existsb _ _).
    - destruct (dget2 dv t f) as [dflt |].
      + destruct (dget tf_eqb rv (t, f)) as [y |]; split.
        * intros E. injection E as ->. split; [now apply He |]. split; [discriminate | auto].
        * intros (_ & _ & [E | [E _]]); congruence.
        * intros E. injection E as ->. split; [now apply He |]. split; [discriminate | auto].
        * intros (_ & _ & [E | [_ E]]); congruence.
      + split; [discriminate | tauto].
    - split; [discriminate |]. intros (E & _). apply He in E. discriminate.
  Qed.

  Definition bad_reference (sch : schema) (rv : replacements) : Prop :=
    exists t f x, In ((t, f), x) rv /\ ~ exists ts, In (t, ts) sch /\ In f (tpk ts ++ tdf ts).

  Lemma repl_ok_iff : forall sch rv, wf_schema sch -> (pan_repl_ok sch rv = false <-> bad_reference sch rv).
  Proof.
    intros sch rv Hs. unfold pan_repl_ok, bad_reference.
    assert (forall t f, dmem String.eqb sch t && existsb (String.eqb f) (tfields (ts_of sch t)) = true <->
              exists ts, In (t, ts) sch /\ In f (tpk ts ++ tdf ts)) as Hk.
    { intros t f. rewrite andb_true_iff, existsb_exists. unfold dmem, ts_of, dget_or. split.
      - intros [H1 (f' & H2 & E)]. apply String.eqb_eq in E. subst f'.
        destruct (dget String.eqb sch t) as [ts |] eqn:E; [| discriminate].
        apply dget_In_NoDup in E; [| apply Hs]. exists ts. auto.
      - intros (ts & H1 & H2). apply dget_In_NoDup in H1; [| apply Hs]. rewrite H1. split; auto.
        exists f. split; auto. apply String.eqb_refl. }
    split.
    - intros H. induction rv as [| [[t f] x] rv IH]; simpl in H; [discriminate |].
      destruct (dmem String.eqb sch t && existsb (String.eqb f) (tfields (ts_of sch t))) eqn:E.
      + simpl in H. destruct (IH H) as (t' & f' & x' & Hin & Hn). exists t', f', x'. split; auto. now right.
      + exists t, f, x. split; [now left |]. intros Hx. apply Hk in Hx. congruence.
    - intros (t & f & x & Hin & Hn). apply not_true_is_false. intros H. rewrite forallb_forall in H.
      apply Hn, Hk. exact (H _ Hin).
  Qed.

  (** The replacement for a failing column is itself not acceptable. *)
  Definition bad_replacement (sch : schema) (tys : types) (dv : defaults) (d : pdat) (rv : replacements) : Prop :=
    exists t f i v dt x, pan_failing parses sch tys d t f i v /\ enforced sch tys t f dt /\
      dget2 dv t f <> None /\ pan_replacement dv rv t f x /\ valid_data parses dt x = false.

  (** A replacement is given for a typed or key column without default value. *)
  Definition no_default (sch : schema) (tys : types) (dv : defaults) (rv : replacements) : Prop :=
    exists t f x dt, dget tf_eqb rv (t, f) = Some x /\ enforced sch tys t f dt /\ dget2 dv t f = None.

  Lemma valid_iff : forall sch tys dv d rv rep rr, wf_schema sch -> wf_types sch tys -> wf_pdat sch d ->
    pan_find_types parses sch tys d PInf = Some rep ->
    pan_real (typed (tmp_types sch tys)) dv rv [] = Some rr ->
    (pan_valid parses (tmp_types sch tys) rep rr = false <-> bad_replacement sch tys dv d rv).
  Proof.
    intros sch tys dv d rv rep rr Hs Ht Hd Hf Hr. unfold pan_valid, bad_replacement. split.
    - intros H. assert (exists kv, In kv rr /\ (if dmem tf_eqb rep (fst kv) then
        match dget2 (tmp_types sch tys) (fst (fst kv)) (snd (fst kv)) with
        | Some dt => valid_data parses dt (snd kv) | None => false end else true) = false) as ([[t f] x] & Hin & E).
      { clear -H. induction rr as [| kv rr IH]; simpl in H; [discriminate |]. apply andb_false_iff in H as [H | H].
        - exists kv. split; auto. now left.
        - destruct (IH H) as (kv' & Hin & E). exists kv'. split; auto. now right. }
      simpl in E. rewrite dmem_in_keys in E. simpl in E.
      destruct (in_keys rep t f) eqn:Ek; [| discriminate].
      eapply in_keys_failing in Ek as (i & v & Hfail); eauto.
      apply (In_dget tf_eqb tf_eqb_refl) in Hin; [| eapply real_distinct; eauto; exact I].
      apply (real_replacement _ _ _ _ _ _ _ _ Ht Hr) in Hin as ((dt & He) & Hd0 & Hrep).
      exists t, f, i, v, dt, x. repeat split; auto; try apply Hfail.
      apply (tmp_types_get _ _ _ _ _ Ht) in He. now rewrite He in E.
    - intros (t & f & i & v & dt & x & Hfail & He & Hd0 & Hrep & Hv). apply not_true_is_false.
      intros H. rewrite forallb_forall in H.
      assert (dget tf_eqb rr (t, f) = Some x) as Hx by (apply (real_replacement _ _ _ _ _ _ _ _ Ht Hr); eauto).
      apply (dget_In tf_eqb) in Hx as (k & Ek & Hin). apply tf_eqb_eq in Ek. subst k.
      specialize (H _ Hin). simpl in H. rewrite dmem_in_keys in H. simpl in H.
      assert (in_keys rep t f = true) as Ek by (eapply in_keys_failing; eauto). rewrite Ek in H.
      apply (tmp_types_get _ _ _ _ _ Ht) in He. rewrite He in H. congruence.
  Qed.

  (** What a call does to one cell. *)
  Definition new_cell (sch : schema) (tys : types) (dv : defaults) (rv : replacements) (t f : string) (v v' : value) : Prop :=
    (exists dt, enforced sch tys t f dt /\ valid_data parses dt v = false /\ valid_data parses dt v' = true /\
       pan_replacement dv rv t f v') \/
    (v' = v /\ ~ exists dt x, enforced sch tys t f dt /\ valid_data parses dt v = false /\ pan_replacement dv rv t f x).

  Lemma apply_exact : forall sch tys dv d rv rep rr, wf_schema sch -> wf_types sch tys -> wf_pdat sch d ->
    pan_find_types parses sch tys d PInf = Some rep ->
    pan_real (typed (tmp_types sch tys)) dv rv [] = Some rr ->
    pan_valid parses (tmp_types sch tys) rep rr = true ->
    let d' := pan_apply parses sch (tmp_types sch tys) rep rr d in
    wf_pdat sch d' /\
    (forall t ts, In (t, ts) sch -> List.length (d' t) = List.length (d t)) /\
    (forall t f i v', pan_cell sch d' t f i v' -> exists v, pan_cell sch d t f i v /\ new_cell sch tys dv rv t f v v') /\
    (forall t f i v', pan_failing parses sch tys d' t f i v' -> dget tf_eqb rr (t, f) = None).
  Proof.
    intros sch tys dv d rv rep rr Hs Ht Hd Hf Hr Hv d'.
    pose proof (pan_find_exact_types _ _ _ _ _ Hs Ht Hd Hf) as (Hn & A & B).
    pose proof (apply_spec parses sch (tmp_types sch tys) rr rep d Hs Hn Hd) as Hd'. fold d' in Hd'.
    assert (forall t f i v', pan_cell sch d' t f i v' ->
              exists v, pan_cell sch d t f i v /\ v' = fix_cell parses (tmp_types sch tys) rr t f v) as Hcell.
    { intros t f i v' (ts & r' & j & H1 & H2 & H3 & H4). rewrite (Hd' t ts H1) in H2.
      rewrite nth_error_map in H2. destruct (nth_error (d t) i) as [r |] eqn:Er; [| discriminate].
      simpl in H2. injection H2 as <-.
      pose proof (Hd _ _ r H1 (nth_error_In _ _ Er)) as Hl.
      destruct (nth_error_ex r j) as (v & Ev). { rewrite Hl. eapply nth_error_Some_lt; eauto. }
      assert (pan_cell sch d t f i v) as Hc by (exists ts, r, j; auto).
      exists v. split; auto.
      rewrite (map_row_nth _ _ _ _ _ _ H3 Ev) in H4. injection H4 as <-.
      destruct (in_keys rep t f) eqn:Ek; auto.
      unfold fix_cell. destruct (dget tf_eqb rr (t, f)); auto.
      destruct (dget2 (tmp_types sch tys) t f) as [dt |] eqn:Edt; auto.
      destruct (pan_bad parses dt v) eqn:Eb; auto. exfalso.
      apply tmp_types_get in Edt; auto. apply pan_bad_iff in Eb.
      assert (in_keys rep t f = true); [| congruence]. eapply in_keys_failing; eauto. exists i, v. split; eauto. }
    split; [| split; [| split]].
    - intros t ts r Hin Hr0. rewrite (Hd' _ _ Hin) in Hr0. apply in_map_iff in Hr0 as (r0 & <- & Hr0).
      apply map_row_length. apply (Hd t ts r0 Hin Hr0).
    - intros t ts Hin. now rewrite (Hd' _ _ Hin), map_length.
    - intros t f i v' Hc'. destruct (Hcell _ _ _ _ Hc') as (v & Hc & ->). exists v. split; auto. unfold fix_cell, new_cell.
      destruct (dget tf_eqb rr (t, f)) as [x |] eqn:Ex.
      + pose proof Ex as Ex'. apply (real_replacement _ _ _ _ _ _ _ _ Ht Hr) in Ex as ((dt & He) & Hd0 & Hrep).
        pose proof He as He'. apply (tmp_types_get _ _ _ _ _ Ht) in He'. rewrite He'.
        destruct (pan_bad parses dt v) eqn:Eb.
        * left. exists dt. apply pan_bad_iff in Eb. repeat split; auto.
          destruct (valid_data parses dt x) eqn:Evx; auto. exfalso.
          assert (pan_valid parses (tmp_types sch tys) rep rr = false); [| congruence].
          rewrite (valid_iff _ _ _ _ _ _ _ Hs Ht Hd Hf Hr). exists t, f, i, v, dt, x. repeat split; eauto.
        * right. split; auto. intros (dt' & x' & He2 & Hv2 & _).
          assert (dt' = dt) as -> by (eapply failing_unique_type; eauto).
          apply pan_bad_iff in Hv2. congruence.
      + right. split; auto. intros (dt & x & He & Hv2 & Hrep).
        assert (dget2 dv t f <> None) as Hd0.
        { destruct Hrep as [E | [_ E]]; [| congruence]. intros E0.
          assert (pan_real (typed (tmp_types sch tys)) dv rv [] = None); [| congruence].
          apply (proj1 (pan_real_spec dv rv _ _)). exists (t, f), dt. split; [now apply typed_enforced |]. simpl. split; auto.
          unfold dmem. now rewrite E. }
        assert (dget tf_eqb rr (t, f) = Some x); [| congruence]. apply (real_replacement _ _ _ _ _ _ _ _ Ht Hr). eauto.
    - intros t f i v' (Hc' & dt & He & Hbad). destruct (Hcell _ _ _ _ Hc') as (v & Hc & ->).
      destruct (dget tf_eqb rr (t, f)) as [x |] eqn:Ex; auto. exfalso. unfold fix_cell in Hbad. rewrite Ex in Hbad.
      pose proof He as He'. apply (tmp_types_get _ _ _ _ _ Ht) in He'. rewrite He' in Hbad.
      destruct (pan_bad parses dt v) eqn:Eb.
      + apply (real_replacement _ _ _ _ _ _ _ _ Ht Hr) in Ex as (_ & Hd0 & Hrep).
        assert (pan_valid parses (tmp_types sch tys) rep rr = false); [| congruence].
        rewrite (valid_iff _ _ _ _ _ _ _ Hs Ht Hd Hf Hr). apply pan_bad_iff in Eb.
        exists t, f, i, v, dt, x. repeat split; eauto.
      + assert (pan_bad parses dt v = true); [| congruence]. now apply pan_bad_iff.
  Qed.

  Lemma find_inf : forall sch tys d, exists rep, pan_find_types parses sch tys d PInf = Some rep.
  Proof. intros. unfold pan_find_types. simpl. eauto. Qed.

  Lemma no_entries : forall sch tys d, wf_schema sch -> wf_types sch tys -> wf_pdat sch d ->
    (pan_find_types parses sch tys d PInf = Some [] <-> ~ exists t f i v, pan_failing parses sch tys d t f i v).
  Proof.
    intros sch tys d Hs Ht Hd. split.
    - intros H (t & f & i & v & Hf). assert (in_keys [] t f = true); [| discriminate]. eapply in_keys_failing; eauto.
    - intros H. destruct (find_inf sch tys d) as (rep & E). rewrite E. f_equal. destruct rep as [| [[t f] fl] rep]; auto.
      exfalso. apply H. exists t, f.
      eapply in_keys_failing; eauto. unfold in_keys. simpl. now rewrite tf_eqb_refl.
  Qed.

  Theorem pan_replace_raises : forall sch tys dv d rv, wf_schema sch -> wf_types sch tys -> wf_pdat sch d ->
    (praised (pan_replace parses sch tys dv d rv) = true <->
     bad_reference sch rv \/
     ((exists t f i v, pan_failing parses sch tys d t f i v) /\
      (no_default sch tys dv rv \/ bad_replacement sch tys dv d rv))) /\
    (praised (pan_replace parses sch tys dv d rv) = true -> pout (pan_replace parses sch tys dv d rv) = d).
  Proof.
    intros sch tys dv d rv Hs Ht Hd. unfold pan_replace.
    pose proof (repl_ok_iff sch rv Hs) as Ho. destruct (pan_repl_ok sch rv); cbn [praised pout].
    2: { split; auto. split; auto. intros _. left. now apply Ho. }
    assert (~ bad_reference sch rv) as Hno by (intros H; apply Ho in H; discriminate). clear Ho.
    pose proof (no_entries sch tys d Hs Ht Hd) as He.
    destruct (find_inf sch tys d) as (rep & E). rewrite E in *.
    assert (rep = [] \/ (exists t f i v, pan_failing parses sch tys d t f i v) /\ rep <> []) as [-> | [Hf Hne]].
    { destruct rep as [| [[t f] fl] rep]; auto. right. split; [| discriminate]. exists t, f.
      eapply in_keys_failing; eauto. unfold in_keys. simpl. now rewrite tf_eqb_refl. }
    { cbn [praised pout]. split; [| auto]. split; [discriminate |]. intros [H | [H _]]; [contradiction |].
      exfalso. now apply (proj1 He). }
    assert (forall X (a b : X), match rep with [] => a | _ :: _ => b end = b) as Hm by (destruct rep; congruence).
    rewrite Hm.
    pose proof (proj1 (pan_real_spec dv rv (typed (tmp_types sch tys)) [])) as Hreal.
    assert (pan_real (typed (tmp_types sch tys)) dv rv [] = None <-> no_default sch tys dv rv) as Hreal'.
    { rewrite Hreal. unfold no_default. split.
      - intros ([t f] & dt & H1 & H2 & H3). unfold dmem in H2. destruct (dget tf_eqb rv (t, f)) as [x |] eqn:Ex; [| discriminate].
        exists t, f, x, dt. repeat split; auto. now apply typed_enforced.
      - intros (t & f & x & dt & H1 & H2 & H3). exists (t, f), dt. split; [now apply typed_enforced |]. split; auto.
        unfold dmem. now rewrite H1. }
    destruct (pan_real (typed (tmp_types sch tys)) dv rv []) as [rr |] eqn:Er; cbn [praised pout].
    2: { split; auto. split; auto. intros _. right. split; auto. left. now apply Hreal'. }
    assert (~ no_default sch tys dv rv) as Hnd by (intros H; apply Hreal' in H; discriminate).
    pose proof (valid_iff _ _ _ _ _ _ _ Hs Ht Hd E Er) as Hvi.
    destruct (pan_valid parses (tmp_types sch tys) rep rr) eqn:Ev.
    2: { cbn [praised pout]. split; auto. split; auto. intros _. right. split; auto. right. now apply Hvi. }
    destruct (apply_exact _ _ _ _ _ _ _ Hs Ht Hd E Er Ev) as (Hd' & _ & _ & Hleft).
    set (d' := pan_apply parses sch (tmp_types sch tys) rep rr d) in *.
    destruct (find_inf sch tys d') as (rep' & E'). rewrite E'. cbn [praised pout].
    assert (existsb (fun e => dmem tf_eqb rr (fst e)) rep' = false) as ->.
    { apply not_true_is_false. intros H. apply existsb_exists in H as ([[t f] fl] & Hin & Hm'). simpl in Hm'.
      assert (in_keys rep' t f = true) as Hk.
      { unfold in_keys. apply existsb_exists. exists ((t, f), fl). split; auto. apply tf_eqb_refl. }
      eapply in_keys_failing in Hk as (i & v & Hfail); eauto. apply Hleft in Hfail. unfold dmem in Hm'. now rewrite Hfail in Hm'. }
    split; [| discriminate]. split; [discriminate |]. intros [H | [_ [H | H]]]; try contradiction.
    apply Hvi in H. discriminate.
  Qed.

  Theorem pan_replace_exact : forall sch tys dv d rv, wf_schema sch -> wf_types sch tys -> wf_pdat sch d ->
    praised (pan_replace parses sch tys dv d rv) = false ->
    let d' := pout (pan_replace parses sch tys dv d rv) in
    wf_pdat sch d' /\
    (forall t ts, In (t, ts) sch -> List.length (d' t) = List.length (d t)) /\
    (forall t f i v', pan_cell sch d' t f i v' -> exists v, pan_cell sch d t f i v /\ new_cell sch tys dv rv t f v v').
  Proof.
    intros sch tys dv d rv Hs Ht Hd H. cbv zeta. revert H. unfold pan_replace.
    destruct (pan_repl_ok sch rv); cbn [praised pout]; [| discriminate].
    pose proof (no_entries sch tys d Hs Ht Hd) as He.
    destruct (find_inf sch tys d) as (rep & E). rewrite E in *.
    assert (rep = [] \/ rep <> []) as [-> | Hne] by (destruct rep; [auto | right; discriminate]).
    { cbn [praised pout]. intros _. split; auto. split; auto. intros t f i v' Hc. exists v'. split; auto.
      right. split; auto. intros (dt & x & H1 & H2 & _). apply (proj1 He); auto. exists t, f, i, v'. split; eauto. }
    assert (forall X (a b : X), match rep with [] => a | _ :: _ => b end = b) as Hm by (destruct rep; congruence).
    rewrite Hm. clear Hm.
    destruct (pan_real (typed (tmp_types sch tys)) dv rv []) as [rr |] eqn:Er; cbn [praised pout]; [| discriminate].
    destruct (pan_valid parses (tmp_types sch tys) rep rr) eqn:Ev; cbn [praised pout]; [| discriminate].
    destruct (apply_exact _ _ _ _ _ _ _ Hs Ht Hd E Er Ev) as (Hd' & Hl & Hcell & _).
    set (d' := pan_apply parses sch (tmp_types sch tys) rep rr d) in *.
    destruct (find_inf sch tys d') as (rep' & E'). rewrite E'. cbn [praised pout]. auto.
  Qed.
End Replace.
