(** * Row predicates: PanDatFactory reports what TicDatFactory reports. *)
From Coq Require Import ZArith Bool List String Arith Lia.
From Verif Require Import PyVal PyValFacts PyDict PyDictFacts ListFacts TypeDict Data FindTypes FindTypesFacts FK Factory
  InfIO Params RowPred RowPredFacts RowPredMore.
Import ListNotations.
Local Open Scope string_scope.
Local Open Scope list_scope.

(** ** faster_df_apply *)

Lemma df_apply_const {R X S} (g : X) (rows : list R) : forall st : S,
  df_apply (fun _ => Returned g) None rows st = (Returned (map (fun _ => g) rows), st).
Proof. induction rows as [|r rows IH]; intros st; cbn; auto. now rewrite IH. Qed.

Lemma select_const {A X R} (bad : X -> bool) (g : X) (Hg : bad g = false) : forall (l : list A) (rows : list R),
  select l (map (fun _ => g) rows) bad = [].
Proof.
  induction l as [|a l IH]; intros [|r rows]; auto. unfold select in *. cbn. rewrite Hg. apply IH.
Qed.

(** Without a trip wire: the results, in order. *)
Lemma df_apply_plain {R X S} (func : R -> called X) rows : forall st : S,
  (forall w, fst (df_apply func None rows st) = Returned w <-> Forall2 (fun r x => func r = Returned x) rows w) /\
  snd (df_apply func None rows st) = st /\
  ((exists m, fst (df_apply func None rows st) = Raised m) <-> exists r m, In r rows /\ func r = Raised m).
Proof.
  induction rows as [|r rows IH]; intros st; cbn [df_apply].
  - cbn. split; [|split; auto].
    + intros w. split; [intros [= <-]; constructor|intros H; now inversion H].
    + split; [intros [m [=]]|intros (r & m & [] & _)].
  - destruct (func r) as [x|m] eqn:E; cbn.
    + destruct (IH st) as (H1 & H2 & H3).
      destruct (df_apply func None rows st) as [[xs|m] st2]; cbn [fst snd] in *.
      * split; [|split; auto].
        -- intros w. split.
           ++ intros [= <-]. constructor; auto. now apply H1.
           ++ intros H. inversion H as [|? y ? w' Hy Hw]; subst. apply H1 in Hw. congruence.
        -- split; [intros [m [=]]|]. intros (r' & m & [<-|Hr] & Hm); [congruence|]. exfalso.
           destruct (proj2 H3) as [m' [=]]. eauto.
      * split; [|split; auto].
        -- intros w. split; [discriminate|]. intros H. inversion H as [|? y ? w' Hy Hw]; subst. apply H1 in Hw. discriminate.
        -- split; [|intros _; exists m; reflexivity]. intros _.
           destruct (proj1 H3) as (r' & m' & Hr & Hm); [exists m; reflexivity|]. exists r', m'. split; auto.
    + split; [|split; auto].
      * intros w. split; [discriminate|]. intros H. inversion H; subst. congruence.
      * split; [|intros _; exists m; reflexivity]. intros _. exists r, m. split; auto.
Qed.

(** With a trip wire: at the first result on which the check answers, the
    answer replaces the function for the rows that follow, and the check is
    not asked again.  [st] is unchanged by the check in the next two lemmas. *)
Lemma df_apply_trip {R X St} (func g : R -> called X) (c : X -> St -> St * option (R -> called X)) pre r post ws x w : 
  forall st st1,
  Forall2 (fun r x => func r = Returned x) pre ws -> func r = Returned x -> Forall2 (fun r x => g r = Returned x) post w ->
  fold_left (fun s y => fst (c y s)) ws st = st1 ->
  (forall k y, nth_error ws k = Some y -> snd (c y (fold_left (fun s y => fst (c y s)) (firstn k ws) st)) = None) ->
  snd (c x st1) = Some g ->
  df_apply func (Some c) (pre ++ r :: post) st = (Returned (ws ++ x :: w), fst (c x st1)).
Proof.
  intros st st1 Hpre. revert st. induction Hpre as [|r0 y pre ws Hy Hpre IH]; intros st Hx Hw Hst Hno Htrip.
  - cbn in *. subst st1. rewrite Hx. destruct (c x st) as [s2 [h|]]; [|discriminate].
    injection Htrip as ->. cbn [fst]. destruct (df_apply_plain g post s2) as (H1 & H2 & _).
    apply H1 in Hw. destruct (df_apply g None post s2) as [q s3]. cbn [fst snd] in *. subst. reflexivity.
  - cbn [app df_apply]. rewrite Hy. pose proof (Hno 0 y eq_refl) as H0. cbn [firstn fold_left] in H0.
    cbn [fold_left] in Hst. destruct (c y st) as [s2 o] eqn:E. cbn [snd fst] in H0, Hst. subst o.
    rewrite (IH s2); auto.
    intros k z Hk. specialize (Hno (S k) z Hk). cbn [firstn fold_left] in Hno. now rewrite E in Hno.
Qed.

Lemma df_apply_quiet {R X St} (func : R -> called X) (c : X -> St -> St * option (R -> called X)) rows w : forall st,
  Forall2 (fun r x => func r = Returned x) rows w ->
  (forall k y, nth_error w k = Some y -> snd (c y (fold_left (fun s y => fst (c y s)) (firstn k w) st)) = None) ->
  df_apply func (Some c) rows st = (Returned w, fold_left (fun s y => fst (c y s)) w st).
Proof.
  intros st H. revert st. induction H as [|r y rows w Hy H IH]; intros st Hno; [reflexivity|].
  cbn [df_apply fold_left]. rewrite Hy. pose proof (Hno 0 y eq_refl) as H0. cbn [firstn fold_left] in H0.
  destruct (c y st) as [s2 o] eqn:E. cbn [snd fst] in *. subst o. rewrite IH; auto.
  intros k z Hk. specialize (Hno (S k) z Hk). cbn [firstn fold_left] in Hno. now rewrite E in Hno.
Qed.

(** ** One predicate *)

Definition add_rows (rtn : list (tpn * entry)) (tp : tpn) (L : list (rowid * option string)) : list (tpn * entry) :=
  fold_left (fun r x => add_row r tp x) L rtn.

Lemma dset_dset rtn tp (e e' : entry) : dset tpn_eqb (dset tpn_eqb rtn tp e) tp e' = dset tpn_eqb rtn tp e'.
Proof.
  induction rtn as [|[k v] rtn IH]; cbn.
  - now rewrite tpn_refl.
  - destruct (tpn_eqb k tp) eqn:E; cbn; rewrite E; congruence.
Qed.

Lemma add_rows_more tp L : forall rtn L0,
  add_rows (dset tpn_eqb rtn tp (ERows L0)) tp L = dset tpn_eqb rtn tp (ERows (L0 ++ L)).
Proof.
  induction L as [|x L IH]; intros rtn L0; cbn [add_rows fold_left].
  - now rewrite app_nil_r.
  - unfold add_row at 2. rewrite dget_dset_same by apply tpn_refl. rewrite dset_dset.
    fold (add_rows (dset tpn_eqb rtn tp (ERows (L0 ++ [x]))) tp L). rewrite IH. now rewrite <- app_assoc.
Qed.

Lemma add_rows_fresh rtn tp L : dget tpn_eqb rtn tp = None ->
  add_rows rtn tp L = match L with [] => rtn | _ => dset tpn_eqb rtn tp (ERows L) end.
Proof.
  destruct L as [|x L]; intros H; auto. cbn [add_rows fold_left]. unfold add_row at 2. rewrite H.
  apply (add_rows_more tp L rtn [x]).
Qed.

Section Generic.
  Variables (X : Type) (func : list (string * value) -> called X) (badx : X -> bool) (msg : X -> option string) (good : X).
  Hypothesis good_ok : badx good = false.
  Variable mx : num.

  Definition wire : option (X -> nat -> nat * option (list (string * value) -> called X)) :=
    if num_ltb mx PInf then
      Some (fun x c => if badx x then (S c, if num_leb mx (of_int (Z.of_nat (S c))) then Some (fun _ => Returned good) else None)
                       else (c, None))
    else None.

  Definition gact (tp : tpn) (x : rowid * list (string * value)) : list act :=
    match func (snd x) with
    | Raised _ => [ARaise]
    | Returned v => if badx v then [ARow tp (fst x, msg v)] else []
    end.

  Definition sel (rows : list (rowid * list (string * value))) (w : list X) : list (rowid * option string) :=
    map (fun ab => (fst ab, msg (snd ab))) (select (map fst rows) w badx).

  Lemma generic tp rows : forall rtn c, trips mx c = false ->
    exists L ra b, for_each (do_act mx) (flat_map (gact tp) rows) (rtn, c, false) =
      ((add_rows rtn tp L, c + List.length L, ra), b) /\
      match df_apply func wire (map snd rows) c with
      | (Raised _, _) => ra = true /\ b = true
      | (Returned w, c') => ra = false /\ L = sel rows w /\ b = trips mx (c + List.length L) /\
                            (num_ltb mx PInf = true -> c' = c + List.length L)
      end.
  Proof.
    induction rows as [|x rows IH]; intros rtn c Hc.
    - cbn. exists [], false, false. cbn. rewrite Nat.add_0_r. auto.
    - cbn [flat_map map df_apply]. rewrite for_each_app. unfold gact at 1.
      destruct (func (snd x)) as [v|m] eqn:F.
      2: { exists [], true, true. cbn. rewrite Nat.add_0_r. auto. }
      destruct (badx v) eqn:B.
      + cbn [for_each do_act record]. destruct (trips mx (S c)) eqn:T.
        * exists [(fst x, msg v)], false, true. split; [cbn; now replace (c + 1) with (S c) by lia|].
          unfold wire. unfold trips in T. apply andb_prop in T as [T1 T2]. rewrite T1, B, T2, df_apply_const.
          split; auto. split; [|split].
          -- unfold sel, select. cbn [map combine filter snd]. rewrite B. cbn [map fst snd].
             f_equal. change (filter _ _) with (select (map fst rows) (map (fun _ => good) (map snd rows)) badx).
             now rewrite select_const.
          -- cbn [List.length]. replace (c + 1) with (S c) by lia. unfold trips. now rewrite T1, T2.
          -- cbn. intros _. lia.
        * destruct (IH (add_row rtn tp (fst x, msg v)) (S c) T) as (L & ra & b & E & H).
          exists ((fst x, msg v) :: L), ra, b. split.
          { cbn [List.length]. replace (c + S (List.length L)) with (S c + List.length L) by lia. exact E. }
          unfold wire in H |- *. unfold trips in T. destruct (num_ltb mx PInf) eqn:M.
          -- cbn [andb] in T. rewrite B, T. destruct (df_apply func _ (map snd rows) (S c)) as [[w|m] c']; auto.
             destruct H as (-> & -> & -> & Hc'). split; auto. split; [|split].
             ++ unfold sel, select. cbn [map combine filter snd]. now rewrite B.
             ++ cbn [List.length]. f_equal. lia.
             ++ intros _. rewrite Hc' by auto. cbn [List.length]. lia.
          -- destruct (df_apply func None (map snd rows) (S c)) as [q c1] eqn:Q.
             pose proof (df_apply_plain func (map snd rows) (S c)) as (P1 & P2 & P3).
             pose proof (df_apply_plain func (map snd rows) c) as (P1' & P2' & P3').
             rewrite Q in P1, P2, P3. cbn [fst snd] in *.
             destruct (df_apply func None (map snd rows) c) as [q' c2]. cbn [fst snd] in *.
             destruct q as [w|m].
             ++ assert (q' = Returned w) as -> by (apply P1', P1; reflexivity).
                destruct H as (-> & -> & -> & _). split; auto. split; [|split].
                ** unfold sel, select. cbn [map combine filter snd]. now rewrite B.
                ** cbn [List.length]. f_equal. lia.
                ** discriminate.
             ++ destruct q' as [w|m']; auto. exfalso.
                destruct (proj2 P3') as [m' [=]]. apply P3. eauto.
      + cbn [for_each]. destruct (IH rtn c Hc) as (L & ra & b & E & H). exists L, ra, b. split; auto.
        unfold wire in H |- *. destruct (num_ltb mx PInf) eqn:M.
        * rewrite B. destruct (df_apply func _ (map snd rows) c) as [[w|m] c']; auto.
          destruct H as (-> & -> & -> & Hc'). split; auto. split; [|split]; auto.
          unfold sel, select. cbn [map combine filter snd]. now rewrite B.
        * destruct (df_apply func None (map snd rows) c) as [[w|m] c']; auto.
          destruct H as (-> & -> & -> & Hc'). split; auto. split; [|split]; auto.
          unfold sel, select. cbn [map combine filter snd]. now rewrite B.
  Qed.

  Lemma select_any rows w : existsb badx w = false -> sel rows w = [].
  Proof.
    intros H. unfold sel, select. rewrite filter_none; auto.
    intros [a b] Hin. apply in_combine_r in Hin. cbn. destruct (badx b) eqn:E; auto.
    rewrite <- H. symmetry. apply existsb_exists. eauto.
  Qed.

  Lemma select_some rows w : List.length rows = List.length w -> existsb badx w = true -> sel rows w <> [].
  Proof.
    intros Hl H. apply existsb_exists in H as (b & Hb & E). apply In_nth_error in Hb as [i Hi].
    destruct (nth_error_ex (map fst rows) i) as [a Ha].
    { rewrite map_length, Hl. eapply nth_error_Some_lt; eauto. }
    assert (Hin : In (a, b) (combine (map fst rows) w)).
    { assert (In (a, b) (combine (map fst rows) w)) as Hc; [|exact Hc].
      clear -Hi Ha. revert w i Hi Ha. generalize (map fst rows) as q. induction q as [|y q IH]; intros w i Hi Ha; [now destruct i|].
      destruct w as [|z w]; [now destruct i|]. destruct i as [|i]; cbn in *.
      - injection Hi as ->. injection Ha as ->. now left.
      - right. eauto. }
    intros Hn. assert (Hs : In (a, b) (select (map fst rows) w badx)) by (apply filter_In; auto).
    unfold sel in Hn. apply map_eq_nil in Hn. rewrite Hn in Hs. contradiction.
  Qed.
End Generic.

Lemma df_apply_length {R X S} rows : forall func (check : option (X -> S -> S * option (R -> called X))) st w st',
  df_apply func check rows st = (Returned w, st') -> List.length rows = List.length w.
Proof.
  induction rows as [|r rows IH]; intros func check st w st' H; cbn [df_apply] in H.
  - now injection H as <- _.
  - destruct (func r) as [x|]; [|discriminate].
    destruct (match check with None => (func, check, st) | Some c => match c x st with (st1, Some g) => (g, None, st1) | (st1, None) => (func, check, st1) end end)
      as [[f' c'] st1].
    destruct (df_apply f' c' rows st1) as [[xs|m] st2] eqn:E; [|discriminate]. injection H as <- _. cbn. f_equal. eauto.
Qed.

Section PanSim.
  Variables K D : Type.
  Variable no_kw : K.
  Variable pred : nat -> list (string * value) -> K -> called value.
  Variable maker : nat -> D -> called (kwres K).
  Variable convert : called (D + string).
  Variable converted : tpn -> bool.
  Variable self : D.
  Variable show : value -> string.
  Variable good_param : list (string * value) -> value.
  Variable handled : bool.

  Notation fstate := (fstate K D).
  Notation kwargs := (kwargs K D no_kw maker convert converted self handled).
  Notation pred_step := (pred_step K D no_kw pred maker convert converted self show good_param handled).
  Notation find_rows := (find_rows K D no_kw pred maker convert converted self show good_param handled).
  Notation pan_step := (pan_step K D no_kw pred maker convert converted self show good_param handled).
  Notation pan_find_rows := (pan_find_rows K D no_kw pred maker convert converted self show good_param handled).
  Notation pan_entry := (pan_entry K pred show good_param handled).
  Notation row_act := (row_act K pred show good_param handled).

  Definition responds (r : rpi) : Prop := r_resp r = "Boolean" \/ r_resp r = "Error Message".

  Lemma flat_map_ext_all {A B} (f g : A -> list B) (l : list A) : (forall x, f x = g x) -> flat_map f l = flat_map g l.
  Proof. intros H. induction l as [|x l IH]; cbn; congruence. Qed.

  Lemma entry_ok mx tp r k rows rtn c : responds r -> trips mx c = false -> dget tpn_eqb rtn tp = None ->
    exists rtn' c' ra b, for_each (do_act mx) (flat_map (row_act tp r k) rows) (rtn, c, false) = ((rtn', c', ra), b) /\
      match pan_entry mx r k rows c with
      | (Raised _, _) => ra = true /\ b = true
      | (Returned e, c1) => ra = false /\ rtn' = match e with None => rtn | Some e => dset tpn_eqb rtn tp e end /\
                            b = trips mx c' /\ (num_ltb mx PInf = true -> c1 = c')
      end.
  Proof.
    intros Hr Ht Hn. unfold RowPred.pan_entry. destruct (String.eqb_spec (r_resp r) "Boolean") as [B|B].
    - set (func := fun x => match call_pred K pred good_param (r_fn r) x k with
                   | Returned v => Returned (negb (truthy v))
                   | Raised m => if handled then Returned true else Raised m end).
      assert (E : flat_map (row_act tp r k) rows = flat_map (gact bool func (fun b => b) (fun _ => None) tp) rows).
      { apply flat_map_ext_all. intros x. unfold RowPredMore.row_act, gact, func.
        destruct (call_pred K pred good_param (r_fn r) (snd x) k) as [v|m]; cbn [guarded].
        - unfold judged. rewrite B. cbn. destruct (truthy v); reflexivity.
        - destruct handled; auto. rewrite B. unfold judged. rewrite B. reflexivity. }
      rewrite E. destruct (generic bool func (fun b => b) (fun _ => None) false eq_refl mx tp rows rtn c Ht)
        as (L & ra & b & F & H).
      exists (add_rows rtn tp L), (c + List.length L), ra, b. split; auto.
      change (check_bool mx) with (wire bool (fun b => b) false mx).
      destruct (df_apply func (wire bool (fun b => b) false mx) (map snd rows) c) as [[w|m] c1] eqn:G; auto.
      destruct H as (-> & HL & -> & Hc). split; auto. split; auto.
      rewrite add_rows_fresh by auto. apply df_apply_length in G. rewrite map_length in G.
      destruct (existsb (fun b => b) w) eqn:Q.
      + pose proof (select_some bool (fun b => b) (fun _ => None) rows w G Q) as Hs. rewrite <- HL in Hs.
        destruct L; [congruence|]. rewrite HL. reflexivity.
      + rewrite (select_any bool (fun b => b) (fun _ => None) rows w Q) in HL. now rewrite HL.
    - assert (B' : r_resp r = "Error Message") by (destruct Hr; congruence).
      set (func := fun x => guarded handled r (call_pred K pred good_param (r_fn r) x k)).
      set (badx := fun v : value => match v with VBool true => false | _ => true end).
      set (msg := fun v : value => Some (show v)).
      assert (E : flat_map (row_act tp r k) rows = flat_map (gact value func badx msg tp) rows).
      { apply flat_map_ext_all. intros x. unfold RowPredMore.row_act, gact, func.
        destruct (guarded handled r (call_pred K pred good_param (r_fn r) (snd x) k)) as [v|m]; auto.
        unfold judged. rewrite B'. cbn. destruct v as [| |[|]| | |]; reflexivity. }
      assert (Hw : wire value badx (VBool true) mx = check_msg mx \/ True) by now right.
      assert (Hdf : df_apply func (check_msg mx) (map snd rows) c = df_apply func (wire value badx (VBool true) mx) (map snd rows) c).
      { unfold check_msg, wire. destruct (num_ltb mx PInf); auto. clear. generalize (map snd rows) as q.
        intros q. revert c. induction q as [|x q IH]; intros c; cbn [df_apply]; auto.
        destruct (func x) as [v|]; auto. unfold badx.
        destruct v as [| |[|]| | |]; try (destruct (num_leb mx (of_int (Z.of_nat (S c)))); [|rewrite IH]; reflexivity).
        now rewrite IH. }
      rewrite E, Hdf. destruct (generic value func badx msg (VBool true) eq_refl mx tp rows rtn c Ht)
        as (L & ra & b & F & H).
      exists (add_rows rtn tp L), (c + List.length L), ra, b. split; auto.
      destruct (df_apply func (wire value badx (VBool true) mx) (map snd rows) c) as [[w|m] c1] eqn:G; auto.
      destruct H as (-> & HL & -> & Hc). split; auto. split; auto.
      rewrite add_rows_fresh by auto. apply df_apply_length in G. rewrite map_length in G.
      change (fun v : value => match v with VBool true => false | _ => true end) with badx.
      destruct (existsb badx w) eqn:Q.
      + pose proof (select_some value badx msg rows w G Q) as Hs. rewrite <- HL in Hs.
        destruct L; [congruence|]. rewrite HL. reflexivity.
      + rewrite (select_any value badx msg rows w Q) in HL. now rewrite HL.
  Qed.

  (** Same state, up to the count when there is no bound. *)
  Definition like (mx : num) (s s' : fstate) : Prop :=
    s_conv K D s = s_conv K D s' /\ s_memo K D s = s_memo K D s' /\ s_rtn s = s_rtn s' /\ s_raised s = s_raised s' /\
    (num_ltb mx PInf = true -> s_count K D s = s_count K D s').

  Lemma like_trips mx s s' : like mx s s' -> trips mx (s_count K D s) = trips mx (s_count K D s').
  Proof. intros (_ & _ & _ & _ & H). unfold trips. destruct (num_ltb mx PInf); auto. now rewrite H. Qed.

  Lemma kwargs_like mx s s' tp r : like mx s s' ->
    like mx (fst (kwargs s tp r)) (fst (kwargs s' tp r)) /\ snd (kwargs s tp r) = snd (kwargs s' tp r) /\
    s_rtn (fst (kwargs s tp r)) = s_rtn s /\ s_count K D (fst (kwargs s tp r)) = s_count K D s /\
    s_count K D (fst (kwargs s' tp r)) = s_count K D s'.
  Proof.
    destruct s as [cv me rt co ra], s' as [cv' me' rt' co' ra']. intros (H1 & H2 & H3 & H4 & H5).
    cbn in *. subst cv' me' rt' ra'. unfold RowPred.kwargs. destruct (r_maker r) as [n|].
    2: { cbn. repeat split; auto. }
    unfold ensure_converted, make_kwargs, s_raise. 
    destruct (converted tp); cbn.
    - destruct cv as [cv|]; cbn; [|destruct convert as [cv|m]; cbn; [|destruct handled; cbn]].
      all: destruct ra; cbn; try (repeat split; auto; fail).
      all: destruct (dget Nat.eqb me n); cbn; try (repeat split; auto; fail).
      1,2: destruct cv as [dd|m]; cbn; try (repeat split; auto; fail); destruct (maker n dd); cbn;
           try (repeat split; auto; fail); destruct handled; cbn; repeat split; auto.
    - destruct ra; cbn; try (repeat split; auto; fail).
      destruct (dget Nat.eqb me n); cbn; try (repeat split; auto; fail).
      destruct (maker n self); cbn; try (repeat split; auto; fail). destruct handled; cbn; repeat split; auto.
  Qed.

  Lemma step_like mx sch d x s s' : responds (snd (snd x)) -> like mx s s' -> s_raised s = false ->
    trips mx (s_count K D s) = false -> dget tpn_eqb (s_rtn s) (pkey x) = None ->
    let (p, b) := pred_step mx sch d (fst x) (snd x) s in
    let (q, b') := pan_step mx sch d (fst x) (snd x) s' in
    b = b' /\ s_raised p = s_raised q /\
    (s_raised p = false -> like mx p q) /\
    (b = false -> s_raised p = false /\ trips mx (s_count K D p) = false /\
       forall tp, tpn_eqb (pkey x) tp = false -> dget tpn_eqb (s_rtn p) tp = dget tpn_eqb (s_rtn s) tp).
  Proof.
    intros Hr Hl Hra Ht Hd. unfold RowPred.pred_step, RowPred.pan_step.
    change (fst x, fst (snd x)) with (pkey x).
    destruct (kwargs_like mx s s' (pkey x) (snd (snd x)) Hl) as (L1 & L2 & L3 & L4 & L5).
    destruct (kwargs s (pkey x) (snd (snd x))) as [s1 kw], (kwargs s' (pkey x) (snd (snd x))) as [s1' kw'].
    cbn [fst snd] in *. subst kw'. destruct L1 as (A1 & A2 & A3 & A4 & A5).
    rewrite <- A4. destruct (s_raised s1) eqn:R1.
    { split; auto. split; [congruence|]. split; [congruence|discriminate]. }
    assert (Hc : trips mx (s_count K D s1) = trips mx (s_count K D s1')).
    { apply like_trips. repeat split; auto. now rewrite R1. }
    destruct kw as [k|m|].
    - cbn [RowPred.kw_message]. rewrite row_loop.
      assert (Ht1 : trips mx (s_count K D s1) = false) by (now rewrite L4).
      assert (Hd1 : dget tpn_eqb (s_rtn s1) (pkey x) = None) by (now rewrite L3).
      unfold proj. rewrite R1.
      destruct (entry_ok mx (pkey x) (snd (snd x)) k (pred_rows (ts_of sch (fst x)) (d (fst x))) (s_rtn s1) (s_count K D s1) Hr Ht1 Hd1)
        as (rtn' & c' & ra & b & E & H). unfold RowPredMore.row_act in E. unfold RowPredMore.row_act.
      rewrite E.
      assert (Hpe : exists c1', pan_entry mx (snd (snd x)) k (pred_rows (ts_of sch (fst x)) (d (fst x))) (s_count K D s1') =
                 (fst (pan_entry mx (snd (snd x)) k (pred_rows (ts_of sch (fst x)) (d (fst x))) (s_count K D s1)), c1') /\
                 (num_ltb mx PInf = true -> c1' = snd (pan_entry mx (snd (snd x)) k (pred_rows (ts_of sch (fst x)) (d (fst x))) (s_count K D s1)))).
      { destruct (num_ltb mx PInf) eqn:M.
        - rewrite <- A5 by auto. eexists. rewrite <- surjective_pairing. auto.
        - exists (s_count K D s1'). split; [|discriminate]. unfold RowPred.pan_entry, check_bool, check_msg. rewrite M.
          generalize (pred_rows (ts_of sch (fst x)) (d (fst x))) as rows. intros rows.
          assert (Hplain : forall (X : Type) (func : list (string * value) -> called X) (c1 c2 : nat),
                    df_apply func None (map snd rows) c1 = (fst (df_apply func None (map snd rows) c2), c1)).
          { intros X func c1 c2. generalize (map snd rows) as q. induction q as [|y q IH]; auto. cbn.
            destruct (func y) as [v|]; auto. rewrite IH. destruct (df_apply func None q c2) as [[w|m] c3]; reflexivity. }
          destruct (String.eqb (r_resp (snd (snd x))) "Boolean").
          + rewrite (Hplain _ _ (s_count K D s1') (s_count K D s1)).
            destruct (df_apply _ None (map snd rows) (s_count K D s1)) as [[w|m] c3]; reflexivity.
          + rewrite (Hplain _ _ (s_count K D s1') (s_count K D s1)).
            destruct (df_apply _ None (map snd rows) (s_count K D s1)) as [[w|m] c3]; reflexivity. }
      destruct Hpe as (c1' & -> & Hc1).
      destruct (pan_entry mx (snd (snd x)) k (pred_rows (ts_of sch (fst x)) (d (fst x))) (s_count K D s1)) as [[e|m] c1].
      2: { cbn [fst]. destruct H as [-> ->]. unfold with_proj, s_raise. cbn. repeat split; try discriminate; auto. }
      cbn [fst snd] in *. destruct H as (-> & -> & -> & Hcc). unfold with_proj. cbn [fst snd].
      assert (Hfin : num_ltb mx PInf = true -> c' = c1') by (intros M; rewrite (Hcc M) in Hc1; rewrite Hc1; auto).
      assert (Htr : trips mx c' = num_ltb mx PInf && num_leb mx (of_int (Z.of_nat c1'))).
      { unfold trips. destruct (num_ltb mx PInf); auto. now rewrite Hfin. }
      destruct e as [e|]; cbn [RowPred.s_raised RowPred.s_count RowPred.s_rtn].
      + cbn [orb]. rewrite <- Htr. split; auto. split; auto. split.
        * intros _. unfold like. cbn. rewrite <- A3. repeat split; auto.
        * intros E'. split; auto. split; auto. intros tp Htp.
          rewrite dget_dset_other; [now rewrite L3|apply tpn_sym|apply tpn_trans|exact Htp].
      + cbn [orb]. rewrite <- Htr. split; auto. split; auto. split.
        * intros _. unfold like. cbn. repeat split; auto.
        * intros E'. split; auto. split; auto. intros tp Htp. now rewrite L3.
    - cbn [RowPred.kw_message]. unfold with_rtn. cbn [RowPred.s_raised RowPred.s_count RowPred.s_rtn]. rewrite <- A4, R1, <- A3. cbn [orb].
      assert (Htr : trips mx (S (s_count K D s1)) = num_ltb mx PInf && num_leb mx (of_int (Z.of_nat (S (s_count K D s1'))))).
      { unfold trips. destruct (num_ltb mx PInf); auto. now rewrite A5. }
      rewrite <- Htr. split; auto. split; auto. split.
      + intros _. unfold like. cbn. repeat split; auto.
      + intros E'. split; auto. split; auto. intros tp Htp.
        rewrite dget_dset_other; [now rewrite L3|apply tpn_sym|apply tpn_trans|exact Htp].
    - cbn [RowPred.kw_message]. unfold with_rtn. cbn [RowPred.s_raised RowPred.s_count RowPred.s_rtn]. rewrite <- A4, R1, <- A3. cbn [orb].
      assert (Htr : trips mx (S (s_count K D s1)) = num_ltb mx PInf && num_leb mx (of_int (Z.of_nat (S (s_count K D s1'))))).
      { unfold trips. destruct (num_ltb mx PInf); auto. now rewrite A5. }
      rewrite <- Htr. split; auto. split; auto. split.
      + intros _. unfold like. cbn. repeat split; auto.
      + intros E'. split; auto. split; auto. intros tp Htp.
        rewrite dget_dset_other; [now rewrite L3|apply tpn_sym|apply tpn_trans|exact Htp].
  Qed.

  Lemma loop_like mx sch d l : keys_distinct tpn_eqb (map pkey l) -> (forall x, In x l -> responds (snd (snd x))) ->
    forall s s', like mx s s' -> s_raised s = false -> trips mx (s_count K D s) = false ->
    (forall x, In x l -> dget tpn_eqb (s_rtn s) (pkey x) = None) ->
    let (p, b) := for_each (fun x => pred_step mx sch d (fst x) (snd x)) l s in
    let (q, b') := for_each (fun x => pan_step mx sch d (fst x) (snd x)) l s' in
    s_raised p = s_raised q /\ (s_raised p = false -> s_rtn p = s_rtn q).
  Proof.
    induction l as [|x l IH]; intros Kd Hresp s s' Hl Hra Ht Hn; cbn [for_each].
    - destruct Hl as (_ & _ & H3 & H4 & _). auto.
    - cbn in Kd. destruct Kd as [K1 K2].
      pose proof (step_like mx sch d x s s' (Hresp x (or_introl eq_refl)) Hl Hra Ht (Hn x (or_introl eq_refl))) as H.
      destruct (pred_step mx sch d (fst x) (snd x) s) as [p b], (pan_step mx sch d (fst x) (snd x) s') as [q b'].
      destruct H as (<- & H1 & H2 & H3). destruct b.
      + split; auto. intros Hp. destruct (H2 Hp) as (_ & _ & E & _). auto.
      + destruct (H3 eq_refl) as (P1 & P2 & P3). apply IH; auto.
        * intros y Hy. apply Hresp. now right.
        * intros y Hy. rewrite P3; [apply Hn; now right|]. apply K1. apply in_map. exact Hy.
  Qed.

  Lemma flat_distinct l : wf_preds l -> keys_distinct tpn_eqb (map pkey (flat l)).
  Proof.
    intros [N Hd]. induction l as [|[t ps] l IH]; [exact I|]. inversion N as [|? ? Ht N']; subst.
    unfold flat. cbn [flat_map fst snd]. fold (flat l). rewrite map_app.
    assert (IH' := IH N' (fun t' ps' H => Hd t' ps' (or_intror H))). clear IH.
    pose proof (Hd t ps (or_introl eq_refl)) as K0. clear Hd N N'.
    induction ps as [|[n r] ps IH]; [exact IH'|]. cbn in K0. destruct K0 as [K1 K2].
    cbn [map app keys_distinct]. split; [|auto].
    intros k Hk. apply in_app_or in Hk as [Hk|Hk]; apply in_map_iff in Hk as ([t' [n' r']] & <- & Hk).
    - apply in_map_iff in Hk as ([n2 r2] & E2 & Hk). injection E2 as <- <- <-.
      unfold tpn_eqb, pkey. cbn. rewrite (K1 n2); [apply andb_false_r|]. apply in_map_iff. exists (n2, r2). auto.
    - apply in_flat in Hk as (ps' & Hk & _). unfold tpn_eqb, pkey. cbn.
      destruct (String.eqb_spec t t') as [<-|]; auto. exfalso. apply Ht. apply in_map_iff. exists (t, ps'). auto.
  Qed.

  Lemma pan_same l sch d mx : wf_preds l -> (forall t ps pn r, In (t, ps) l -> In (pn, r) ps -> responds r) ->
    pan_find_rows l sch d mx = find_rows l sch d mx.
  Proof.
    intros W Hresp. unfold RowPred.pan_find_rows, RowPred.find_rows. destruct (num_ltb (of_int 0) mx) eqn:Hpos; auto.
    set (s0 := mkFS K D None [] [] 0 false).
    assert (for_each (fun tp => for_each (pred_step mx sch d (fst tp)) (snd tp)) l s0 =
            for_each (fun x => pred_step mx sch d (fst x) (snd x)) (flat l) s0) as ->.
    { unfold flat. rewrite <- for_each_flat. apply for_each_ext. intros [t ps] s _. cbn [fst snd].
      rewrite for_each_map. reflexivity. }
    assert (for_each (fun tp => for_each (pan_step mx sch d (fst tp)) (snd tp)) l s0 =
            for_each (fun x => pan_step mx sch d (fst x) (snd x)) (flat l) s0) as ->.
    { unfold flat. rewrite <- for_each_flat. apply for_each_ext. intros [t ps] s _. cbn [fst snd].
      rewrite for_each_map. reflexivity. }
    pose proof (loop_like mx sch d (flat l) (flat_distinct l W)) as H.
    specialize (H (fun x Hx => match x return In x (flat l) -> responds (snd (snd x)) with
                               | (t, (pn, r)) => fun Hx => match proj1 (in_flat l t pn r) Hx with
                                                          | ex_intro _ ps (conj H1 H2) => Hresp t ps pn r H1 H2
                                                          end
                               end Hx)).
    specialize (H s0 s0). 
    destruct (for_each (fun x => pred_step mx sch d (fst x) (snd x)) (flat l) s0) as [p b].
    destruct (for_each (fun x => pan_step mx sch d (fst x) (snd x)) (flat l) s0) as [q b'].
    destruct H as [H1 H2].
    - unfold like. auto.
    - reflexivity.
    - cbn. unfold trips. destruct mx; auto. cbn. unfold num_leb. cbn in *. now rewrite Hpos.
    - intros x _. reflexivity.
    - rewrite <- H1. destruct (s_raised p); auto. now rewrite H2.
  Qed.
End PanSim.
