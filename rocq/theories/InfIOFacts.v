(** * Facts about infinity flagging. *)
From Coq Require Import ZArith Bool List String Lia.
From Verif Require Import PyVal PyValFacts PyDict PyDictFacts TypeDict Data FindTypes FindTypesFacts FK Factory FactoryFacts InfIO.
Import ListNotations.
Local Open Scope string_scope.
Local Open Scope list_scope.

(** ** Numbers *)

Lemma value_eqb_true a b : value_eqb a b = true -> a = b.
Proof.
  destruct a, b; simpl; try discriminate; intros H; auto.
  - apply eqb_prop in H. now subst.
  - destruct n, n0; simpl in H; try discriminate; auto. apply Z.eqb_eq in H. now subst.
  - apply String.eqb_eq in H. now subst.
  - apply Z.eqb_eq in H. now subst.
Qed.

Lemma num_ltb_fin a b : num_ltb (Fin a) (Fin b) = (a <? b)%Z.
Proof. reflexivity. Qed.

Lemma flag_pos m : good_flag (VNum m) = true -> exists z, m = Fin z /\ (0 < z)%Z.
Proof.
  unfold good_flag. rewrite andb_true_iff. intros [H1 H2].
  destruct m as [|z|]; try discriminate.
  exists z. split; auto. unfold of_int in H1. rewrite num_ltb_fin in H1. apply Z.ltb_lt in H1. lia.
Qed.

(** Strictly between [-m] and [m]. *)
Definition within (m n : num) : Prop := num_ltb (num_opp m) n = true /\ num_ltb n m = true.

Lemma unflag_within m n : within m n -> unflag (VNum m) (VNum n) = VNum n.
Proof.
  intros [H1 H2]. unfold unflag, num_leb. rewrite H2, H1. reflexivity.
Qed.

Lemma flagged_within m n : within m n -> flagged (VNum m) (VNum n) = VNum n.
Proof.
  intros [H1 H2]. unfold flagged, py_min, py_max.
  destruct (num_ltb m n) eqn:E.
  - destruct m, n; simpl in *; try discriminate. apply Z.ltb_lt in E, H2. lia.
  - destruct (num_ltb n (num_opp m)) eqn:E2; auto.
    destruct m, n; simpl in *; try discriminate. apply Z.ltb_lt in E2, H1. lia.
Qed.

Lemma flagged_pinf z : (0 < z)%Z -> flagged (VNum (Fin z)) (VNum PInf) = VNum (Fin z).
Proof.
  intros H. unfold flagged, py_min, py_max. cbn [num_ltb num_opp].
  replace (z <? - z)%Z with false by (symmetry; apply Z.ltb_ge; lia). reflexivity.
Qed.

Lemma flagged_ninf z : (0 < z)%Z -> flagged (VNum (Fin z)) (VNum NInf) = VNum (Fin (- z)).
Proof. intros H. reflexivity. Qed.

Lemma flagged_over z n : (0 < z)%Z -> num_leb (Fin z) n = true -> flagged (VNum (Fin z)) (VNum n) = VNum (Fin z).
Proof.
  intros H Hn. destruct n as [|y|]; [discriminate| |now apply flagged_pinf].
  unfold num_leb in Hn. rewrite num_ltb_fin in Hn. apply negb_true_iff, Z.ltb_ge in Hn.
  unfold flagged, py_min. rewrite num_ltb_fin.
  destruct (Z.ltb_spec z y).
  - unfold py_max. cbn [num_opp]. rewrite num_ltb_fin.
    replace (z <? - z)%Z with false by (symmetry; apply Z.ltb_ge; lia). reflexivity.
  - unfold py_max. cbn [num_opp]. rewrite num_ltb_fin.
    replace (y <? - z)%Z with false by (symmetry; apply Z.ltb_ge; lia).
    now replace y with z by lia.
Qed.

Lemma flagged_under z n : (0 < z)%Z -> num_leb n (Fin (- z)) = true -> flagged (VNum (Fin z)) (VNum n) = VNum (Fin (- z)).
Proof.
  intros H Hn. destruct n as [|y|]; [reflexivity| |discriminate].
  unfold num_leb in Hn. rewrite num_ltb_fin in Hn. apply negb_true_iff, Z.ltb_ge in Hn.
  unfold flagged, py_min. rewrite num_ltb_fin.
  replace (z <? y)%Z with false by (symmetry; apply Z.ltb_ge; lia).
  unfold py_max. cbn [num_opp]. rewrite num_ltb_fin.
  destruct (Z.ltb_spec y (- z)); auto. now replace y with (- z)%Z by lia.
Qed.

Lemma unflag_top z : (0 < z)%Z -> unflag (VNum (Fin z)) (VNum (Fin z)) = VNum PInf.
Proof. intros H. unfold unflag, num_leb. rewrite num_ltb_fin, Z.ltb_irrefl. reflexivity. Qed.

Lemma unflag_bottom z : (0 < z)%Z -> unflag (VNum (Fin z)) (VNum (Fin (- z))) = VNum NInf.
Proof.
  intros H. unfold unflag, num_leb. cbn [num_opp]. rewrite !num_ltb_fin.
  replace (- z <? z)%Z with true by (symmetry; apply Z.ltb_lt; lia).
  rewrite Z.ltb_irrefl. reflexivity.
Qed.

Lemma flagged_notnum flag v : (forall n, v <> VNum n) -> flagged flag v = v.
Proof. intros H. destruct flag, v; try reflexivity. exfalso. eapply H. reflexivity. Qed.

Lemma unflag_notnum flag v : (forall n, v <> VNum n) -> unflag flag v = v.
Proof. intros H. destruct flag, v; try reflexivity. exfalso. eapply H. reflexivity. Qed.

Section Facts.
  Variable date_of : value -> option Z.
  Variable float_of : value -> option value.

  Notation is_date := (is_date date_of).
  Notation adjust := (adjust date_of).
  Notation munge := (munge float_of).
  Notation bias_now := (bias_now date_of).
  Notation bias := (bias date_of).
  Notation read_cell := (read_cell date_of float_of).
  Notation write_cell := (write_cell date_of).
  Notation istep := (istep date_of float_of).
  Notation irun := (irun date_of float_of).

  (** ** The cache *)

  Definition coherent (s : iofac) : Prop :=
    forall t x b, dget tf_eqb (io_cache s) (t, x) = Some b -> bias_now (io_fac s) t x = Ret b.

  Lemma coherent_empty f : coherent (mkIO f []).
  Proof. intros t x b H. discriminate. Qed.

  Lemma bias_coherent s t x : coherent s ->
    fst (bias s t x) = match f_flag (io_fac s) with
                       | VNone => if is_table (io_fac s) t then bias_now (io_fac s) t x else Raise
                       | _ => Ret None
                       end.
  Proof.
    intros H. unfold InfIO.bias. destruct (f_flag (io_fac s)); auto.
    destruct (is_table (io_fac s) t); auto.
    destruct (dget tf_eqb (io_cache s) (t, x)) eqn:E.
    - now rewrite (H _ _ _ E).
    - now destruct (bias_now (io_fac s) t x).
  Qed.

  Lemma bias_keeps s t x : coherent s -> coherent (mkIO (io_fac s) (snd (bias s t x))).
  Proof.
    intros H. unfold InfIO.bias.
    destruct (f_flag (io_fac s)); cbn; auto; try (now destruct s).
    destruct (is_table (io_fac s) t); cbn; [|now destruct s].
    destruct (dget tf_eqb (io_cache s) (t, x)) eqn:E; cbn; [now destruct s|].
    destruct (bias_now (io_fac s) t x) eqn:B; cbn; [|now destruct s].
    intros t' x' b' H'. cbn in *.
    destruct (tf_eqb (t', x') (t, x)) eqn:Q.
    - apply tf_eqb_eq in Q. injection Q as -> ->.
      rewrite (dget_dset_same tf_eqb tf_eqb_refl) in H'. congruence.
    - rewrite (dget_dset_other tf_eqb tf_eqb_sym tf_eqb_trans) in H' by (now rewrite tf_eqb_sym). now apply H.
  Qed.

  Lemma read_keeps s t x v : coherent s -> coherent (mkIO (io_fac s) (snd (read_cell s t x v))).
  Proof.
    intros H. pose proof (bias_keeps s t x H) as Hb. unfold InfIO.read_cell.
    assert (Hs : coherent (mkIO (io_fac s) (io_cache s))) by (now destruct s).
    destruct (is_table (io_fac s) t); cbn [negb]; [|exact Hs].
    destruct (String.eqb t "parameters"); [exact Hs|].
    match goal with |- context [match ?a with Some _ => _ | None => _ end] => destruct a end; [exact Hs|].
    destruct (unflag _ _); try exact Hs.
    destruct (f_flag (io_fac s)); try exact Hs.
    destruct (bias s t x) as [[[b|]|] c]; exact Hb.
  Qed.

  Lemma write_keeps s t x v : coherent s -> coherent (mkIO (io_fac s) (snd (write_cell s t x v))).
  Proof.
    intros H. pose proof (bias_keeps s t x H) as Hb. unfold InfIO.write_cell.
    assert (Hs : coherent (mkIO (io_fac s) (io_cache s))) by (now destruct s).
    destruct (String.eqb t "parameters" && has_params (io_fac s)); [exact Hs|].
    destruct (f_flag (io_fac s)); try exact Hs.
    destruct (bias s t x) as [[[b|]|] c]; exact Hb.
  Qed.

  Lemma bias_now_types f g t x : f_types f = f_types g -> bias_now f t x = bias_now g t x.
  Proof. intros H. unfold InfIO.bias_now, field_type. now rewrite H. Qed.

  Lemma or_raise_types f o : (forall g, o = Some g -> f_types g = f_types f) -> f_types (fst (or_raise f o)) = f_types f.
  Proof. intros H. destruct o; cbn; auto. Qed.

  (** A call that does not clear the cache leaves the data types alone. *)
  Lemma step_types f o : clears f o = false \/ snd (step is_date f o) = true ->
    f_types (fst (step is_date f o)) = f_types f.
  Proof.
    assert (Hr : forall o' : option factory, snd (or_raise f o') = true -> fst (or_raise f o') = f)
      by (intros [g|]; cbn; auto; discriminate).
    intros H. destruct o; cbn [step] in *.
    - destruct H as [H|H]; [discriminate|]. now rewrite (Hr _ H).
    - destruct H as [H|H].
      + cbn in H. unfold clear_data_type. now rewrite H.
      + now rewrite (Hr _ H).
    - apply or_raise_types. intros g. unfold add_pred.
      destruct (_ && _); [|discriminate]. destruct o as [p|].
      + destruct (mem_str _ _); [|discriminate]. intros [= <-]. reflexivity.
      + destruct (dget _ _ _); intros [= <-]; reflexivity.
    - apply or_raise_types. intros g. unfold add_parameter.
      destruct (_ && _); [|discriminate]. destruct b.
      + destruct (safe_creator d); [|discriminate]. destruct (valid_data _ _ _); [|discriminate].
        intros [= <-]. reflexivity.
      + intros [= <-]. reflexivity.
    - apply or_raise_types. intros g. unfold remove_parameter.
      destruct (dmem _ _ _); [|discriminate]. intros [= <-]. reflexivity.
    - apply or_raise_types. intros g. unfold set_default.
      destruct (_ && _); [|discriminate]. intros [= <-]. reflexivity.
    - clear H. unfold set_defaults. destruct (f_used f); [reflexivity|].
      enough (forall g, f_types g = f_types f ->
        f_types (fst (for_each (fun tv g0 => match set_table_defaults g0 tv with
                        | Some g' => (g', false) | None => (g0, true) end) l g)) = f_types f) by auto.
      induction l as [|tv l IH]; intros g Hg; cbn; auto.
      destruct (set_table_defaults g tv) as [g'|] eqn:E; cbn; auto.
      apply IH. unfold set_table_defaults in E. destruct (_ && _); [|discriminate].
      injection E as <-. exact Hg.
    - apply or_raise_types. intros g. unfold set_gens.
      destruct (_ && _); [|discriminate]. intros [= <-]. reflexivity.
    - apply or_raise_types. intros g. unfold clear_fks.
      destruct (f_used f); [discriminate|]. destruct o.
      + destruct (is_table f s); [|discriminate]. intros [= <-]. reflexivity.
      + intros [= <-]. reflexivity.
    - apply or_raise_types. intros g. unfold add_fk.
      destruct (_ && _); [|discriminate]. destruct (mapping_of f0); [|discriminate].
      destruct (forallb _ _); [|discriminate]. intros [= <-]. reflexivity.
    - apply or_raise_types. intros g. destruct (f_used f); [discriminate|].
      destruct (add_implied _ _ _); cbn; [|discriminate]. intros [= <-]. reflexivity.
    - reflexivity.
    - apply or_raise_types. intros g. unfold set_tip.
      destruct (_ && _); [|discriminate]. intros [= <-]. reflexivity.
    - apply or_raise_types. intros g. destruct (good_flag v); [|discriminate]. intros [= <-]. reflexivity.
    - apply or_raise_types. intros g. destruct (good_xlsx v); [|discriminate]. intros [= <-]. reflexivity.
    - apply or_raise_types. intros g. destruct (good_dup v); [|discriminate]. intros [= <-]. reflexivity.
    - apply or_raise_types. intros g. destruct (good_auto v); [|discriminate]. intros [= <-]. reflexivity.
    - reflexivity.
  Qed.

  Lemma istep_coherent s o : coherent s -> coherent (istep s o).
  Proof.
    intros H. destruct o as [o|t x v|t x v]; cbn.
    - pose proof (step_types (io_fac s) o) as Ht.
      destruct (step is_date (io_fac s) o) as [g raised]. cbn in Ht.
      destruct (clears (io_fac s) o) eqn:C; cbn [andb].
      + destruct raised; cbn [negb]; [|apply coherent_empty].
        intros t x b Hb. cbn in *. rewrite (bias_now_types g (io_fac s)) by auto. now apply H.
      + intros t x b Hb. cbn in *. rewrite (bias_now_types g (io_fac s)) by auto. now apply H.
    - now apply read_keeps.
    - now apply write_keeps.
  Qed.

  Lemma irun_coherent h s : coherent s -> coherent (irun s h).
  Proof. revert s. induction h as [|o h IH]; intros s H; cbn; auto. apply IH. now apply istep_coherent. Qed.

  Lemma read_coherent s s' t x v : coherent s -> coherent s' -> io_fac s = io_fac s' ->
    fst (read_cell s t x v) = fst (read_cell s' t x v).
  Proof.
    intros H H' E. unfold InfIO.read_cell. rewrite <- E.
    destruct (is_table (io_fac s) t); cbn [negb]; auto.
    destruct (String.eqb t "parameters"); auto.
    match goal with |- context [match ?a with Some _ => _ | None => _ end] => destruct a end; auto.
    destruct (unflag _ _); auto. destruct (f_flag (io_fac s)) eqn:F; auto.
    pose proof (bias_coherent s t x H) as B. pose proof (bias_coherent s' t x H') as B'.
    rewrite <- E in B'. rewrite <- B' in B.
    destruct (bias s t x) as [o c], (bias s' t x) as [o' c']. cbn in B. subst o'.
    now destruct o as [[b|]|].
  Qed.

  Lemma write_coherent s s' t x v : coherent s -> coherent s' -> io_fac s = io_fac s' ->
    fst (write_cell s t x v) = fst (write_cell s' t x v).
  Proof.
    intros H H' E. unfold InfIO.write_cell. rewrite <- E.
    destruct (String.eqb t "parameters" && has_params (io_fac s)); auto.
    destruct (f_flag (io_fac s)) eqn:F; auto.
    pose proof (bias_coherent s t x H) as B. pose proof (bias_coherent s' t x H') as B'.
    rewrite <- E in B'. rewrite <- B' in B.
    destruct (bias s t x) as [o c], (bias s' t x) as [o' c']. cbn in B. subst o'.
    now destruct o as [[b|]|].
  Qed.

  (** A factory with its cache as some history left it. *)
  Definition reached (s : iofac) : Prop := exists f h, s = irun (mkIO f []) h.

  Lemma reached_coherent s : reached s -> coherent s.
  Proof. intros (f & h & ->). apply irun_coherent, coherent_empty. Qed.

  Lemma reached_fresh f : reached (mkIO f []).
  Proof. exists f, []. reflexivity. Qed.

  (** ** C36 *)

  Lemma cache_invisible s t x v : reached s ->
    fst (read_cell s t x v) = fst (read_cell (mkIO (io_fac s) []) t x v) /\
    fst (write_cell s t x v) = fst (write_cell (mkIO (io_fac s) []) t x v).
  Proof.
    intros H. apply reached_coherent in H.
    split; [apply read_coherent|apply write_coherent]; auto; apply coherent_empty.
  Qed.

  (** ** Reading and writing in terms of the current settings *)

  Lemma write_flag s t x v : String.eqb t "parameters" = false -> f_flag (io_fac s) <> VNone ->
    fst (write_cell s t x v) = Ret (flagged (f_flag (io_fac s)) v).
  Proof.
    intros H F. unfold InfIO.write_cell. rewrite H. cbn [andb].
    destruct (f_flag (io_fac s)) eqn:E; try reflexivity. congruence.
  Qed.

  Lemma write_none s t x v : coherent s -> String.eqb t "parameters" = false -> is_table (io_fac s) t = true ->
    f_flag (io_fac s) = VNone ->
    fst (write_cell s t x v) =
      match bias_now (io_fac s) t x with
      | Ret (Some b) => Ret (if value_eqb (inf_of b) v then VNone else v)
      | Ret None => Ret v
      | Raise => Raise
      end.
  Proof.
    intros H Ht Hi F. unfold InfIO.write_cell. rewrite Ht, F. cbn [andb].
    pose proof (bias_coherent s t x H) as B. rewrite F, Hi in B.
    destruct (bias s t x) as [o c]. cbn in B. subst o. now destruct (bias_now (io_fac s) t x) as [[b|]|].
  Qed.

  (** The conversions a reader makes because of the field's type leave the cell
      as it is: in a datetime field it is null, a datetime or no date at all,
      and in a field of mixed type with automunge it is no number in disguise. *)
  Definition kept (f : factory) (t x : string) (v : value) : Prop :=
    forall dt, field_type f t x = Some dt ->
      (datetime dt = true -> is_null v = false -> forall d, adjust v = Some d -> v = VDate d) /\
      (datetime dt = false -> strings_allowed dt <> SList [] -> number_allowed dt = true -> truthy (f_auto f) = true ->
       to_float float_of v = None \/ to_float float_of v = Some v).

  Lemma kept_munge f t x v : kept f t x v -> munge f t x v = v.
  Proof.
    intros H. unfold InfIO.munge. destruct (field_type f t x) as [dt|] eqn:E; auto.
    destruct (H _ E) as [_ Hm].
    destruct (datetime dt); cbn [negb andb]; auto.
    destruct (strs_truthy (strings_allowed dt)) eqn:S; cbn [andb]; auto.
    destruct (number_allowed dt) eqn:N; cbn [andb]; auto.
    destruct (truthy (f_auto f)) eqn:A; auto.
    destruct Hm as [Hm|Hm]; try rewrite Hm; auto.
    intros Q. rewrite Q in S. discriminate.
  Qed.

  Lemma read_kept s t x v : coherent s -> String.eqb t "parameters" = false -> is_table (io_fac s) t = true ->
    kept (io_fac s) t x v ->
    fst (read_cell s t x v) =
      match v, f_flag (io_fac s) with
      | VNone, VNone => match bias_now (io_fac s) t x with
                        | Ret (Some b) => Ret (inf_of b)
                        | Ret None => Ret VNone
                        | Raise => Raise
                        end
      | _, _ => Ret (unflag (f_flag (io_fac s)) v)
      end.
  Proof.
    intros H Ht Hi K. unfold InfIO.read_cell. rewrite Hi, Ht. cbn [negb].
    rewrite (kept_munge _ _ _ _ K).
    destruct (match field_type (io_fac s) t x with
              | Some dt => if datetime dt && negb (is_null v) then adjust v else None
              | None => None end) as [d|] eqn:D.
    - destruct (field_type (io_fac s) t x) as [dt|] eqn:E; [|discriminate].
      destruct (datetime dt) eqn:Q; [|discriminate]. destruct (is_null v) eqn:N; [discriminate|].
      cbn [andb negb] in D. destruct (K _ E) as [Hd _]. rewrite (Hd Q N _ D).
      cbn. now destruct (f_flag (io_fac s)).
    - pose proof (bias_coherent s t x H) as B. rewrite Hi in B.
      destruct v as [| |b|n|z|z]; destruct (f_flag (io_fac s)) as [| |b'|n'|z'|z'] eqn:F; cbn [unflag fst]; try reflexivity.
      + destruct (bias s t x) as [o c]. cbn in B. subst o. now destruct (bias_now (io_fac s) t x) as [[b|]|].
      + destruct (num_leb n' n); [reflexivity|]. now destruct (num_leb n (num_opp n')).
  Qed.

  (** ** C34 *)

  Definition round_trips (s s' : iofac) (t x : string) (v : value) : Prop :=
    exists w, fst (write_cell s t x v) = Ret w /\ fst (read_cell s' t x w) = Ret v.

  Lemma par_neq t : t <> "parameters" -> String.eqb t "parameters" = false.
  Proof. intros H. now apply String.eqb_neq. Qed.

  Lemma kept_num_flag f t x z :
    (forall dt, field_type f t x = Some dt -> datetime dt = false -> strings_allowed dt <> SList [] ->
       number_allowed dt = true -> truthy (f_auto f) = true ->
       to_float float_of (VNum z) = Some (VNum z)) ->
    kept f t x (VNum z).
  Proof.
    intros H dt E. split.
    - intros _ _ d Hd. discriminate.
    - intros Q S N A. right. eauto.
  Qed.

  Lemma round_trip_numeric s s' t x v m :
    reached s -> reached s' -> io_fac s = io_fac s' ->
    is_table (io_fac s) t = true -> t <> "parameters" ->
    f_flag (io_fac s) = VNum m -> good_flag (VNum m) = true ->
    kept (io_fac s) t x v ->
    (forall n, v = VNum n -> n = PInf \/ n = NInf -> kept (io_fac s) t x (VNum m) /\ kept (io_fac s) t x (VNum (num_opp m))) ->
    (forall n, v = VNum n -> n = PInf \/ n = NInf \/ within m n) ->
    round_trips s s' t x v.
  Proof.
    intros R R' E Hi Ht F G K Km Hv. apply reached_coherent in R, R'. apply par_neq in Ht.
    destruct (flag_pos m G) as (z & -> & Hz).
    exists (flagged (VNum (Fin z)) v). split.
    { rewrite write_flag; auto; rewrite F; congruence. }
    assert (Hread : forall w, kept (io_fac s) t x w ->
              fst (read_cell s' t x w) = Ret (unflag (VNum (Fin z)) w)).
    { intros w Kw. rewrite read_kept; auto; rewrite <- E; auto. rewrite F. now destruct w. }
    destruct v as [| |b|n|q|q].
    1,2,3,5,6: rewrite flagged_notnum by (intros ? ?; discriminate); rewrite Hread by exact K;
      now rewrite unflag_notnum by (intros ? ?; discriminate).
    destruct (Hv n eq_refl) as [-> | [-> | W]].
    - destruct (Km PInf eq_refl (or_introl eq_refl)) as [K1 K2].
      rewrite flagged_pinf by exact Hz. rewrite Hread by exact K1. now rewrite unflag_top.
    - destruct (Km NInf eq_refl (or_intror eq_refl)) as [K1 K2].
      rewrite flagged_ninf by exact Hz. rewrite Hread by exact K2. now rewrite unflag_bottom.
    - rewrite flagged_within by exact W. rewrite Hread by exact K. now rewrite unflag_within.
  Qed.

  (** Finite numbers at or beyond the flag come back as infinities. *)
  Lemma beyond_flag s s' t x m n :
    reached s -> reached s' -> io_fac s = io_fac s' ->
    is_table (io_fac s) t = true -> t <> "parameters" ->
    f_flag (io_fac s) = VNum m -> good_flag (VNum m) = true ->
    kept (io_fac s) t x (VNum m) -> kept (io_fac s) t x (VNum (num_opp m)) ->
    (num_leb m n = true ->
     exists w, fst (write_cell s t x (VNum n)) = Ret w /\ fst (read_cell s' t x w) = Ret (VNum PInf)) /\
    (num_leb n (num_opp m) = true ->
     exists w, fst (write_cell s t x (VNum n)) = Ret w /\ fst (read_cell s' t x w) = Ret (VNum NInf)).
  Proof.
    intros R R' E Hi Ht F G K1 K2. apply reached_coherent in R, R'. apply par_neq in Ht.
    destruct (flag_pos m G) as (z & -> & Hz).
    assert (Hread : forall w, kept (io_fac s) t x w ->
              fst (read_cell s' t x w) = Ret (unflag (VNum (Fin z)) w)).
    { intros w Kw. rewrite read_kept; auto; rewrite <- E; auto. rewrite F. now destruct w. }
    split; intros Hn.
    - exists (VNum (Fin z)). split.
      + rewrite write_flag; auto; rewrite F; [|congruence]. now rewrite flagged_over.
      + rewrite Hread by exact K1. now rewrite unflag_top.
    - exists (VNum (Fin (- z))). split.
      + rewrite write_flag; auto; rewrite F; [|congruence]. now rewrite flagged_under.
      + rewrite Hread by exact K2. now rewrite unflag_bottom.
  Qed.

  Lemma bias_some f t x b : bias_now f t x = Ret (Some b) ->
    exists dt, field_type f t x = Some dt /\ number_allowed dt = true /\ valid_data is_date dt VNone = false /\
      valid_data is_date dt (inf_of b) = true /\ valid_data is_date dt (inf_of (negb b)) = false.
  Proof.
    unfold InfIO.bias_now. destruct (field_type f t x) as [dt|]; [|discriminate].
    destruct (number_allowed dt) eqn:N; cbn [andb]; [|discriminate].
    destruct (valid_data is_date dt VNone) eqn:V; cbn [negb]; [discriminate|].
    destruct (valid_data is_date dt (VNum PInf)) eqn:P; cbn [andb];
      destruct (valid_data is_date dt (VNum NInf)) eqn:Q; try discriminate;
      intros [= <-]; exists dt; repeat split; auto.
  Qed.

  Lemma bias_raise f t x : bias_now f t x = Raise <->
    exists dt, field_type f t x = Some dt /\ number_allowed dt = true /\ valid_data is_date dt VNone = false /\
      valid_data is_date dt (VNum PInf) = true /\ valid_data is_date dt (VNum NInf) = true.
  Proof.
    unfold InfIO.bias_now. split.
    - destruct (field_type f t x) as [dt|]; [|discriminate].
      destruct (number_allowed dt) eqn:N; cbn [andb]; [|discriminate].
      destruct (valid_data is_date dt VNone) eqn:V; cbn [negb]; [discriminate|].
      destruct (valid_data is_date dt (VNum PInf)) eqn:P; cbn [andb];
        destruct (valid_data is_date dt (VNum NInf)) eqn:Q; try discriminate.
      exists dt; repeat split; auto.
    - intros (dt & -> & -> & -> & -> & ->). reflexivity.
  Qed.

  Lemma valid_null_none d : valid_data is_date d VNaN = valid_data is_date d VNone.
  Proof. reflexivity. Qed.

  Lemma round_trip_none s s' t x v :
    reached s -> reached s' -> io_fac s = io_fac s' ->
    is_table (io_fac s) t = true -> t <> "parameters" ->
    f_flag (io_fac s) = VNone ->
    kept (io_fac s) t x v ->
    (forall dt, field_type (io_fac s) t x = Some dt -> valid_data is_date dt v = true) ->
    fst (write_cell s t x v) <> Raise ->
    round_trips s s' t x v.
  Proof.
    intros R R' E Hi Ht F K V NR. apply reached_coherent in R, R'. apply par_neq in Ht.
    rewrite write_none in NR by auto.
    unfold round_trips. rewrite write_none by auto.
    assert (Hread : forall w, kept (io_fac s) t x w ->
              fst (read_cell s' t x w) =
                match w with
                | VNone => match bias_now (io_fac s) t x with
                        | Ret (Some b) => Ret (inf_of b)
                        | Ret None => Ret VNone
                        | Raise => Raise
                        end
                | _ => Ret w end).
    { intros w Kw. rewrite read_kept; auto; rewrite <- E; auto. rewrite F. now destruct w. }
    destruct (bias_now (io_fac s) t x) as [[b|]|] eqn:B; [| |congruence].
    - destruct (value_eqb (inf_of b) v) eqn:Q.
      + apply value_eqb_true in Q. exists VNone. split; auto.
        rewrite Hread; [now subst|].
        intros dt _. split; [discriminate|]. intros. now left.
      + exists v. split; auto. rewrite Hread by exact K.
        destruct v; auto.
        destruct (bias_some _ _ _ _ B) as (dt & Hdt & _ & Hn & _). rewrite (V _ Hdt) in Hn. discriminate.
    - exists v. split; auto. rewrite Hread by exact K. now destruct v.
  Qed.

  Lemma round_trip_na s s' t x v :
    io_fac s = io_fac s' -> is_table (io_fac s) t = true -> t <> "parameters" ->
    f_flag (io_fac s) = VStr "N/A" -> kept (io_fac s) t x v -> reached s' ->
    round_trips s s' t x v.
  Proof.
    intros E Hi Ht F K R'. apply reached_coherent in R'. apply par_neq in Ht.
    exists v. split.
    - rewrite write_flag; auto; rewrite F; [reflexivity|congruence].
    - rewrite read_kept; auto; rewrite <- E; auto. rewrite F. now destruct v.
  Qed.

  (** With the None flag writing raises exactly for fields that allow both
      infinities but not None. *)
  Lemma none_flag_raises s t x v :
    reached s -> is_table (io_fac s) t = true -> t <> "parameters" -> f_flag (io_fac s) = VNone ->
    fst (write_cell s t x v) = Raise <->
    exists dt, field_type (io_fac s) t x = Some dt /\ number_allowed dt = true /\
      valid_data is_date dt VNone = false /\
      valid_data is_date dt (VNum PInf) = true /\ valid_data is_date dt (VNum NInf) = true.
  Proof.
    intros R Hi Ht F. apply reached_coherent in R. apply par_neq in Ht.
    rewrite write_none by auto. rewrite <- bias_raise.
    destruct (bias_now (io_fac s) t x) as [[b|]|]; split; intros H; congruence.
  Qed.

  (** Dates: whatever the flag, a cell of a datetime field that denotes a date
      is read as that datetime. *)
  Lemma dates_read s s' t x v dt d w :
    reached s -> reached s' -> io_fac s = io_fac s' ->
    is_table (io_fac s) t = true -> t <> "parameters" ->
    field_type (io_fac s) t x = Some dt -> datetime dt = true -> is_null v = false -> adjust v = Some d ->
    fst (write_cell s t x v) = Ret w ->
    fst (read_cell s' t x w) = Ret (VDate d).
  Proof.
    intros R R' E Hi Ht Hdt Q N D W. apply reached_coherent in R, R'. apply par_neq in Ht.
    assert (Hn : forall n, v <> VNum n) by (intros n ->; discriminate).
    assert (w = v) as ->.
    { destruct (f_flag (io_fac s)) eqn:F.
      1: { rewrite write_none in W by auto.
           destruct (bias_now (io_fac s) t x) as [[b|]|]; try congruence.
           destruct (value_eqb (inf_of b) v) eqn:VE; [|congruence].
           apply value_eqb_true in VE. exfalso. unfold inf_of in VE. now apply (Hn _ (eq_sym VE)). }
      all: rewrite write_flag in W by (auto; rewrite F; congruence);
           rewrite flagged_notnum in W by exact Hn; congruence. }
    unfold InfIO.read_cell. rewrite <- E, Hi, Ht, Hdt, Q, N. cbn [negb andb]. now rewrite D.
  Qed.

  (** None flag: a cell is written as None exactly when it is None already or
      it is the only infinity the field's current type allows, the type
      forbidding None. *)
  Lemma none_flag_exact s t x v :
    reached s -> is_table (io_fac s) t = true -> t <> "parameters" -> f_flag (io_fac s) = VNone ->
    fst (write_cell s t x v) <> Raise ->
    fst (write_cell s t x v) = Ret VNone <->
    (v = VNone \/
     exists b dt, v = inf_of b /\ field_type (io_fac s) t x = Some dt /\ number_allowed dt = true /\
      valid_data is_date dt VNone = false /\ valid_data is_date dt (inf_of b) = true /\
      valid_data is_date dt (inf_of (negb b)) = false).
  Proof.
    intros R Hi Ht F NR. apply reached_coherent in R. apply par_neq in Ht.
    rewrite write_none in * by auto.
    destruct (bias_now (io_fac s) t x) as [[b|]|] eqn:B; [| |congruence].
    - destruct (bias_some _ _ _ _ B) as (dt & Hdt & Hn & HN & H1 & H2).
      destruct (value_eqb (inf_of b) v) eqn:Q.
      + apply value_eqb_true in Q. subst v. split; [|auto]. intros _. right. exists b, dt. now repeat split.
      + split; [intros [= ->]; now left|].
        intros [->|(b' & dt' & -> & Hdt' & _ & _ & H1' & H2')]; auto.
        rewrite Hdt in Hdt'. injection Hdt' as <-.
        destruct b, b'; cbn in *; congruence.
    - split; [intros [= ->]; now left|].
      intros [->|(b' & dt' & -> & Hdt' & Hn & HN & H1' & H2')]; auto.
      exfalso. revert B. unfold InfIO.bias_now. rewrite Hdt', Hn, HN. cbn [andb negb].
      unfold inf_of in H1', H2'. destruct b'; cbn [negb] in H1', H2'; rewrite H1', H2'; discriminate.
  Qed.

  (** ** C35 *)

  Lemma params_read s x v : is_table (io_fac s) "parameters" = true ->
    fst (read_cell s "parameters" x v) = Ret v.
  Proof. intros H. unfold InfIO.read_cell. now rewrite H. Qed.

  Lemma params_write s x v : f_params (io_fac s) <> [] ->
    fst (write_cell s "parameters" x v) = Ret (if is_null v then VNone else v).
  Proof.
    intros H. unfold InfIO.write_cell, has_params. cbn [String.eqb Ascii.eqb Bool.eqb].
    destruct (f_params (io_fac s)); [congruence|]. reflexivity.
  Qed.
End Facts.
