(** * Facts about the parameters table. *)
From Coq Require Import ZArith Bool List String Lia.
From Verif Require Import PyVal PyValFacts PyDict PyDictFacts TypeDict Data FindTypes FindTypesFacts Factory InfIO InfIOFacts Params.
Import ListNotations.
Local Open Scope string_scope.
Local Open Scope list_scope.

Section Facts.
  Variable date_of : value -> option Z.
  Variable float_of : value -> option value.

  Notation create_full := (create_full date_of).
  Notation param_cell := (param_cell date_of float_of).
  Notation param_default := (param_default date_of).
  Notation is_date := (is_date date_of).

  Lemma pyeq_str s v : pyeq (VStr s) v = true <-> v = VStr s.
  Proof.
    split; [|intros ->; apply pyeq_refl]. unfold pyeq. cbn. destruct v as [| |[]|n|z|d]; cbn; try discriminate.
    intros H. apply String.eqb_eq in H. now subst.
  Qed.

  Lemma dget_map_params (g : value * (option dtype * value) -> value) l k :
    dget pyeq (map (fun p => (fst p, g p)) l) k =
    match find (fun p => pyeq (fst p) k) l with Some p => Some (g p) | None => None end.
  Proof.
    induction l as [|p l IH]; cbn; auto. now destruct (pyeq (fst p) k).
  Qed.

  Lemma dget_find (l : list (value * (option dtype * value))) k :
    dget pyeq l k = match find (fun p => pyeq (fst p) k) l with Some p => Some (snd p) | None => None end.
  Proof. induction l as [|[k' v] l IH]; cbn; auto. now destruct (pyeq k' k). Qed.

  (** ** C56 *)

  (** The declared default, a datetime default being coerced. *)
  Definition declared_default (f : factory) (k v : value) : Prop :=
    exists td dv, dget pyeq (f_params f) k = Some (td, dv) /\
      ((exists dt d, td = Some dt /\ datetime dt = true /\ adjust date_of dv = Some d /\ v = VDate d) \/
       (~ (exists dt d, td = Some dt /\ datetime dt = true /\ adjust date_of dv = Some d) /\ v = dv)).

  Lemma param_default_spec p :
    (exists dt d, fst (snd p) = Some dt /\ datetime dt = true /\ adjust date_of (snd (snd p)) = Some d /\ param_default p = VDate d) \/
    (~ (exists dt d, fst (snd p) = Some dt /\ datetime dt = true /\ adjust date_of (snd (snd p)) = Some d) /\
     param_default p = snd (snd p)).
  Proof.
    unfold Params.param_default.
    destruct (adjust date_of (snd (snd p))) as [d|] eqn:A.
    - destruct (fst (snd p)) as [dt|].
      + destruct (datetime dt) eqn:D.
        * left. exists dt, d. auto.
        * right. split; auto. intros (dt' & d' & [= <-] & H & _). congruence.
      + right. split; auto. intros (dt' & d' & H & _). congruence.
    - right. split; auto. intros (dt' & d' & _ & _ & H). congruence.
  Qed.

  Lemma full_exact f tb r : NoDup (map fst tb) -> create_full f tb = Some r ->
    forall k v, dget pyeq r k = Some v <->
      (exists k', pyeq k' k = true /\ In (k', v) tb) \/
      ((forall k' w, In (k', w) tb -> pyeq k' k = false) /\ declared_default f k v).
  Proof.
    intros N H k v. unfold Params.create_full in H.
    destruct (has_params f && forallb (fun kv => stringish (fst kv)) tb) eqn:E; [|discriminate].
    injection H as <-. apply andb_prop in E as [_ E].
    rewrite (dget_dupdate pyeq pyeq_refl pyeq_sym pyeq_trans).
    assert (Hs : forall k w, In (k, w) tb -> exists s, k = VStr s).
    { intros k' w Hin. rewrite forallb_forall in E. specialize (E _ Hin). destruct k'; try discriminate. eauto. }
    assert (Hd : keys_distinct pyeq (map fst tb)).
    { clear E. revert Hs N. induction tb as [|[k' w] tb IH]; intros Hs N; cbn; auto.
      inversion N; subst. split; [|apply IH; auto; intros; eapply Hs; right; eauto].
      destruct (Hs k' w) as [s ->]; [now left|].
      intros k2 Hin.
      destruct (pyeq (VStr s) k2) eqn:Q; auto. apply pyeq_str in Q. subst. now exfalso. }
    rewrite (last_bind_distinct pyeq pyeq_sym pyeq_trans) by exact Hd.
    destruct (dget pyeq tb k) as [w|] eqn:G.
    - apply dget_In in G as (k' & Q & Hin). split.
      + intros [= <-]. left. exists k'. auto.
      + intros [(k2 & Q2 & Hin2)|(H & _)].
        * assert (k2 = k') as ->.
          { destruct (Hs _ _ Hin) as [s ->]. destruct (Hs _ _ Hin2) as [s2 ->].
            apply pyeq_str in Q. apply pyeq_str in Q2. congruence. }
          f_equal. clear -N Hin Hin2. induction tb as [|[a b] tb IH]; [contradiction|].
          inversion N; subst. destruct Hin as [[= -> ->]|Hin], Hin2 as [[= ->]|Hin2]; auto.
          -- exfalso. apply H1. apply in_map_iff. exists (k', v). auto.
          -- subst. exfalso. apply H1. apply in_map_iff. exists (k', w). auto.
        * rewrite (H _ _ Hin) in Q. discriminate.
    - assert (Hno : forall k' w, In (k', w) tb -> pyeq k' k = false).
      { intros k' w Hin. destruct (pyeq k' k) eqn:Q; auto.
        rewrite (dget_None pyeq) in G. now rewrite (G _ _ Hin) in Q. }
      rewrite dget_map_params. unfold declared_default. rewrite dget_find.
      destruct (find (fun p => pyeq (fst p) k) (f_params f)) as [[k0 [td dv]]|].
      + cbn [snd]. destruct (param_default_spec (k0, (td, dv))) as [(dt & d & H1 & H2 & H3 & H4)|[H1 H2]]; cbn [fst snd] in *.
        * rewrite H4. split.
          -- intros [= <-]. right. split; auto. exists td, dv. split; auto. left. exists dt, d. auto.
          -- intros [(k' & Q & Hin)|(_ & td' & dv' & [= <- <-] & [(dt' & d' & E1 & E2 & E3 & ->)|[E1 _]])].
             ++ rewrite (Hno _ _ Hin) in Q. discriminate.
             ++ congruence.
             ++ exfalso. apply E1. exists dt, d. auto.
        * rewrite H2. split.
          -- intros [= <-]. right. split; auto. exists td, dv. split; auto.
          -- intros [(k' & Q & Hin)|(_ & td' & dv' & [= <- <-] & [(dt' & d' & E1 & E2 & E3 & ->)|[E1 ->]])]; auto.
             ++ rewrite (Hno _ _ Hin) in Q. discriminate.
             ++ exfalso. apply H1. eauto.
      + split; [discriminate|].
        intros [(k' & Q & Hin)|(_ & td' & dv' & H & _)]; [|discriminate].
        rewrite (Hno _ _ Hin) in Q. discriminate.
  Qed.

  Lemma full_total f tb :
    (exists r, create_full f tb = Some r) <-> f_params f <> [] /\ forall k v, In (k, v) tb -> exists s, k = VStr s.
  Proof.
    unfold Params.create_full, has_params. split.
    - intros [r H]. destruct (negb _) eqn:E; cbn [andb] in H; [|discriminate].
      destruct (forallb _ tb) eqn:F; [|discriminate]. split.
      + intros Q. rewrite Q in E. discriminate.
      + intros k v Hin. rewrite forallb_forall in F. specialize (F _ Hin). destruct k; try discriminate. eauto.
    - intros [H1 H2]. destruct (f_params f) as [|p l]; [congruence|]. cbn [List.length Nat.eqb negb andb].
      assert (forallb (fun kv : value * value => stringish (fst kv)) tb = true) as ->; [|eauto].
      apply forallb_forall. intros [k v] Hin. destruct (H2 _ _ Hin) as [s ->]. reflexivity.
  Qed.

  (** ** C68: parameters stored as strings *)

  (** What a reader hands back for a parameter cell that was written as a
      string (or left as it was): [s] denotes [v] for the parameter [k]. *)
  Definition denotes (td : option dtype) (s : string) (v : value) : Prop :=
    match v with
    | VNum n => (forall t, td = Some t -> datetime t = false /\ number_allowed t = true) /\ float_of (VStr s) = Some v
    | VDate d => (exists t, td = Some t /\ datetime t = true) /\ date_of (VStr s) = Some d
    | VStr s' => s = s' /\ match td with
                           | None => float_of (VStr s) = None
                           | Some t => if datetime t then date_of (VStr s) = None
                                       else number_allowed t = true -> float_of (VStr s) = None
                           end
    | VNone => s = "" /\ exists t, td = Some t /\ nullable t = true /\ valid_data is_date t (VStr "") = false
    | _ => False
    end.

  Lemma param_read_back f k s v :
    denotes (param_type f k) s v ->
    (forall t, param_type f k = Some t -> valid_data is_date t v = true) ->
    (s = "" -> forall t, param_type f k = Some t -> v = VNone \/ nullable t = false \/ valid_data is_date t (VStr "") = true) ->
    param_cell f k (VStr s) = v.
  Proof.
    intros D V E. unfold Params.param_cell.
    destruct (param_type f k) as [td|] eqn:T.
    - destruct (nullable td && value_eqb (VStr s) (VStr "") && negb (valid_data is_date td (VStr s))) eqn:C.
      + apply andb_prop in C as [C C3]. apply andb_prop in C as [C1 C2].
        apply value_eqb_true in C2. injection C2 as ->. apply negb_true_iff in C3.
        destruct (E eq_refl td eq_refl) as [-> | [H|H]]; auto; congruence.
      + unfold denotes in D. destruct v as [| |b|n|s'|d]; cbv iota in D.
        * destruct D as (-> & t & [= <-] & H1 & H2). rewrite H1, H2 in C. discriminate.
        * contradiction.
        * contradiction.
        * destruct D as [H1 H2]. destruct (H1 td eq_refl) as [-> ->]. cbn [to_float]. now rewrite H2.
        * destruct D as [<- D]. destruct (datetime td) eqn:Q.
          -- cbn [adjust]. now rewrite D.
          -- destruct (number_allowed td); auto. cbn [to_float]. now rewrite D.
        * destruct D as [(t & [= <-] & ->) H]. cbn [adjust]. now rewrite H.
    - destruct v as [| |b|n|s'|d]; cbn in D; try contradiction.
      + destruct D as (-> & t & H & _). discriminate.
      + destruct D as [_ H]. cbn [to_float]. now rewrite H.
      + destruct D as [<- H]. cbn [to_float]. now rewrite H.
      + destruct D as [(t & H & _) _]. discriminate.
  Qed.

  (** Reading adjusts once: doing it again changes nothing. *)
  Lemma param_cell_idem f k v :
    (forall x y, to_float float_of x = Some y -> to_float float_of y = Some y /\ numericish y = true) ->
    param_cell f k (param_cell f k v) = param_cell f k v.
  Proof.
    intros Hf.
    set (num := fun v => match to_float float_of v with Some w => w | None => v end).
    assert (Hn : forall v, num (num v) = num v).
    { intros u. unfold num. destruct (to_float float_of u) as [x|] eqn:E.
      - now destruct (Hf _ _ E) as [-> _].
      - now rewrite E. }
    unfold Params.param_cell at 2 3. fold (num v).
    destruct (param_type f k) as [td|] eqn:T.
    - destruct (nullable td && value_eqb v (VStr "") && negb (valid_data is_date td v)) eqn:C.
      + unfold Params.param_cell. rewrite T. cbn [value_eqb]. rewrite andb_false_r. cbn.
        destruct (datetime td); auto. now destruct (number_allowed td).
      + destruct (datetime td) eqn:D.
        * destruct (adjust date_of v) as [d|] eqn:A; unfold Params.param_cell; rewrite T, D.
          -- cbn [value_eqb]. rewrite andb_false_r. reflexivity.
          -- now rewrite C, A.
        * destruct (number_allowed td) eqn:M; unfold Params.param_cell; rewrite T, D, M.
          -- fold (num (num v)). rewrite Hn.
             destruct (nullable td && value_eqb (num v) (VStr "") && negb (valid_data is_date td (num v))) eqn:C'; auto.
             exfalso. apply andb_prop in C' as [C' C3]. apply andb_prop in C' as [C1 C2].
             apply value_eqb_true in C2. unfold num in C2, C3.
             destruct (to_float float_of v) as [w|] eqn:F.
             ++ destruct (Hf _ _ F) as [_ Q]. subst w. discriminate.
             ++ subst v. rewrite C1, C3 in C. discriminate.
          -- now rewrite C.
    - unfold Params.param_cell. rewrite T. fold (num (num v)). apply Hn.
  Qed.

  (** A parameter that takes neither numbers nor dates is left alone, except
      that an empty string which only None can mean becomes None. *)
  Lemma param_cell_text f k v t :
    param_type f k = Some t -> number_allowed t = false -> datetime t = false ->
    param_cell f k v = v \/
    (v = VStr "" /\ nullable t = true /\ valid_data is_date t v = false /\ param_cell f k v = VNone).
  Proof.
    intros T N D. unfold Params.param_cell. rewrite T, N, D.
    destruct (nullable t && value_eqb v (VStr "") && negb (valid_data is_date t v)) eqn:C; auto.
    right. apply andb_prop in C as [C C3]. apply andb_prop in C as [C1 C2].
    apply value_eqb_true in C2. subst v. apply negb_true_iff in C3. auto.
  Qed.
End Facts.

(** A whole table of stored strings. *)
Lemma post_read_back date_of float_of f tb tb0 :
  f_params f <> [] ->
  Forall2 (fun st tr => fst st = fst tr /\ exists s, snd st = VStr s /\
             denotes date_of float_of (param_type f (fst tr)) s (snd tr) /\
             (forall t, param_type f (fst tr) = Some t -> valid_data (is_date date_of) t (snd tr) = true) /\
             (s = "" -> forall t, param_type f (fst tr) = Some t ->
                snd tr = VNone \/ nullable t = false \/ valid_data (is_date date_of) t (VStr "") = true))
    tb tb0 ->
  post_read date_of float_of f tb = tb0.
Proof.
  intros P H. unfold post_read.
  replace (has_params f) with true by (unfold has_params; now destruct (f_params f)).
  induction H as [|[k w] [k0 v] tb tb0 (E & s & W & D & V & Z) H IH]; cbn; auto.
  cbn in *. subst k0 w. now rewrite (param_read_back _ _ _ _ _ _ D V Z), IH.
Qed.
