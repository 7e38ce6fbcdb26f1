(** Facts about the solver wrapper. *)
From Coq Require Import ZArith Bool List String Arith Lia.
From Verif Require Import PyVal PyValFacts PyDict PyDictFacts Solver.
Import ListNotations.
Local Open Scope string_scope.
Local Open Scope list_scope.

Lemma of_int_0 : of_int 0 = Fin 0.
Proof. reflexivity. Qed.
Lemma of_int_1 : of_int 1 = Fin one_units.
Proof. unfold of_int. f_equal. Qed.

(** What the arguments of [add_var] say about the values of the variable. *)
Definition allowed (k : vkind) (lb ub : num) (z : Z) : Prop :=
  num_ltb (Fin z) lb = false /\ num_ltb ub (Fin z) = false /\
  match k with
  | Continuous => True
  | Integral => exists n, Fin z = of_int n
  | Binary => Fin z = of_int 0 \/ Fin z = of_int 1
  end.

(** The arguments [add_var] takes. *)
Definition acceptable (k : vkind) (lb ub : num) : Prop :=
  num_ltb ub lb = false /\ lb <> PInf /\ ub <> NInf /\
  (k = Binary -> (lb = of_int 0 \/ lb = of_int 1) /\ (ub = of_int 0 \/ ub = of_int 1 \/ ub = PInf)).

Opaque one_units.

Lemma num_eqb_iff : forall a b, num_eqb a b = true <-> a = b.
Proof. intros [| x |] [| y |]; simpl; split; intros H; try discriminate; auto; [apply Z.eqb_eq in H; congruence | injection H as ->; apply Z.eqb_refl]. Qed.

Lemma zero_one_iff : forall n, zero_one n = true <-> n = of_int 0 \/ n = of_int 1.
Proof. intros n. unfold zero_one. now rewrite orb_true_iff, !num_eqb_iff. Qed.

Lemma num_leb_iff : forall a b, num_leb a b = true <-> num_ltb b a = false.
Proof. intros a b. unfold num_leb. now rewrite negb_true_iff. Qed.

Lemma ltb_PInf : forall a, num_ltb a PInf = true <-> a <> PInf.
Proof. intros [| |]; simpl; split; congruence. Qed.
Lemma NInf_ltb : forall a, num_ltb NInf a = true <-> a <> NInf.
Proof. intros [| |]; simpl; split; congruence. Qed.

Lemma check_var_iff : forall lb ub type k l u, check_var lb ub type = Some (k, l, u) <->
  exists u0, kind_of type = Some k /\ lb = VNum l /\ ub = VNum u0 /\ acceptable k l u0 /\
    u = match k with Binary => if num_eqb u0 PInf then of_int 1 else u0 | _ => u0 end.
Proof.
  intros lb ub type k l u. unfold check_var, acceptable. split.
  - destruct (kind_of type) as [k' |]; [| discriminate]. destruct lb as [| | | l' | |]; try discriminate. destruct ub as [| | | u' | |]; try discriminate.
    destruct (num_leb l' u' && num_ltb l' PInf && num_ltb NInf u')%bool eqn:E; [| discriminate].
    rewrite !andb_true_iff, num_leb_iff, ltb_PInf, NInf_ltb in E. destruct E as [[E1 E2] E3].
    destruct k'; try (intros H; injection H as <- <- <-; exists u'; repeat (split; auto); discriminate).
    destruct (zero_one l' && zero_one _)%bool eqn:E; [| discriminate]. rewrite andb_true_iff, !zero_one_iff in E. destruct E as [F1 F2].
    intros H; injection H as <- <- <-. exists u'. repeat (split; auto). destruct (num_eqb u' PInf) eqn:E; [apply num_eqb_iff in E; auto | tauto].
  - intros (u0 & -> & -> & -> & (A & B & C & D) & ->).
    assert (num_leb l u0 && num_ltb l PInf && num_ltb NInf u0 = true)%bool as ->.
    { rewrite !andb_true_iff, num_leb_iff, ltb_PInf, NInf_ltb. auto. }
    destruct k; auto. destruct (D eq_refl) as [D1 D2]. assert (zero_one l && zero_one (if num_eqb u0 PInf then of_int 1 else u0) = true)%bool as ->; auto.
    rewrite andb_true_iff, !zero_one_iff. split; auto. destruct (num_eqb u0 PInf) eqn:E; auto. destruct D2 as [D2 | [D2 | D2]]; auto.
    apply num_eqb_iff in D2. congruence.
Qed.

Lemma feasible_var : forall c v a, feasible (core_var c v) a <-> feasible c a /\ var_allows v (a (List.length (c_vars c))) = true.
Proof.
  intros c v a. unfold feasible, core_var. cbn [c_vars c_cons]. split.
  - intros [H1 H2]. split; [split; auto |].
    + intros i w Hi. apply H1. rewrite nth_error_app1; auto. apply nth_error_Some. congruence.
    + apply H1. rewrite nth_error_app2, Nat.sub_diag by lia. reflexivity.
  - intros [[H1 H2] H3]. split; auto. intros i w Hi. destruct (Nat.lt_ge_cases i (List.length (c_vars c))) as [L | L].
    + rewrite nth_error_app1 in Hi by auto. auto.
    + rewrite nth_error_app2 in Hi by auto. destruct (i - List.length (c_vars c)) as [| j] eqn:E; [| simpl in Hi; now destruct j].
      simpl in Hi. injection Hi as <-. assert (i = List.length (c_vars c)) as -> by lia. auto.
Qed.

Lemma feasible_con : forall c k a, feasible (core_con c k) a <-> feasible c a /\ con_allows k a = true.
Proof.
  intros c k a. unfold feasible, core_con. cbn [c_vars c_cons]. split.
  - intros [H1 H2]. split; [split; auto; intros; apply H2; apply in_or_app; auto | apply H2; apply in_or_app; simpl; auto].
  - intros [[H1 H2] H3]. split; auto. intros k' H. apply in_app_or in H as [H | [<- | []]]; auto.
Qed.

Lemma var_allows_iff : forall k l u z, var_allows (mkV k l u) z = true <-> allowed k l u z.
Proof.
  intros k l u z. unfold var_allows, allowed. cbn [v_kind v_lb v_ub]. rewrite !andb_true_iff, !num_leb_iff, of_int_0, of_int_1.
  pose proof one_units_pos as Hp.
  assert (match k with Continuous => true | Binary => Z.eqb z 0 || Z.eqb z one_units | Integral => Z.eqb (Z.modulo z one_units) 0 end = true <->
          match k with Continuous => True | Integral => exists n, Fin z = of_int n | Binary => Fin z = Fin 0 \/ Fin z = Fin one_units end) as ->; [| tauto].
  destruct k; [tauto | |].
  - rewrite orb_true_iff, !Z.eqb_eq. split; intros [H | H]; (left; congruence) || (right; congruence).
  - rewrite Z.eqb_eq. split.
    + intros H. apply Z.mod_divide in H as [n Hn]; [| lia]. exists n. unfold of_int. congruence.
    + intros [n Hn]. unfold of_int in Hn. injection Hn as ->. now apply Z.mod_mul; lia.
Qed.

(** The fixing constraint does what the bounds say. *)
Lemma fixed_ok : forall l u z, acceptable Binary l u -> (u = of_int 0 \/ u = of_int 1) -> (Fin z = of_int 0 \/ Fin z = of_int 1) ->
  (match fixed_rhs l u with Some rhs => num_eqb (Fin z) rhs = true | None => True end <-> num_ltb (Fin z) l = false /\ num_ltb u (Fin z) = false).
Proof.
  intros l u z (A & _ & _ & D) Hu Hz. destruct (D eq_refl) as [Hl _]. pose proof one_units_pos as Hp. unfold fixed_rhs. rewrite of_int_0, of_int_1 in *.
  destruct Hu as [-> | ->], Hl as [-> | ->], Hz as [Hz | Hz]; injection Hz as ->; unfold num_leb; cbn [num_ltb num_eqb] in *; rewrite ?Z.eqb_refl, ?Z.ltb_irrefl in *;
    repeat match goal with
    | |- context [Z.eqb ?x ?y] => destruct (Z.eqb_spec x y); try lia
    | |- context [Z.ltb ?x ?y] => destruct (Z.ltb_spec x y); try lia
    end; cbn [negb num_eqb]; rewrite ?Z.eqb_refl; try (apply Z.ltb_ge in A; lia);
    repeat match goal with
    | |- context [Z.eqb ?x ?y] => destruct (Z.eqb_spec x y); try lia
    end; split; intros; try tauto; try (destruct H; discriminate); try discriminate.
Qed.

Theorem add_var_exact : forall e c lb ub type, 
  (forall c', add_var e c lb ub type = Some c' ->
     exists k l u, kind_of type = Some k /\ lb = VNum l /\ ub = VNum u /\ acceptable k l u /\ List.length (c_vars c') = S (List.length (c_vars c)) /\ c_obj c' = c_obj c /\
       forall a, feasible c' a <-> feasible c a /\ allowed k l u (a (List.length (c_vars c)))) /\
  (add_var e c lb ub type = None <-> ~ exists k l u, kind_of type = Some k /\ lb = VNum l /\ ub = VNum u /\ acceptable k l u).
Proof.
  intros e c lb ub type. split.
  - intros c'. unfold add_var. destruct (check_var lb ub type) as [[[k l] u] |] eqn:E; [| discriminate]. apply check_var_iff in E as (u0 & A & B & C & D & F).
    intros H. exists k, l, u0. split; auto. split; auto. split; auto. split; auto.
    assert (c' = core_var c (mkV k l u) \/
            (k = Binary /\ (e = Cplex \/ e = Xpress) /\ exists b1 b2, (b1 = l /\ b2 = u \/ b1 = of_int 0 /\ b2 = of_int 1) /\
               c' = match fixed_rhs l u with Some rhs => core_con (core_var c (mkV Binary b1 b2)) (CFix (List.length (c_vars c)) rhs) | None => core_var c (mkV Binary b1 b2) end)) as Hc.
    { destruct e; destruct k; injection H as <-; auto; right; split; auto; split; auto; eexists _, _; (split; [| reflexivity]); auto. }
    clear H. destruct Hc as [-> | (-> & He & b1 & b2 & Hb & ->)].
    + cbn [c_vars core_var c_obj]. split; [rewrite app_length; simpl; lia |]. split; auto. intros a. rewrite feasible_var, var_allows_iff. subst u.
      destruct k; try tauto. destruct (num_eqb u0 PInf) eqn:E; [| tauto]. apply num_eqb_iff in E. subst u0. unfold allowed. rewrite of_int_0, of_int_1. pose proof one_units_pos.
      split; intros (H1 & H2 & H3 & H4); (split; auto); (split; auto); (split; auto). cbn [num_ltb]. apply Z.ltb_ge. destruct H4 as [H4 | H4]; injection H4 as ->; lia.
    + split; [destruct (fixed_rhs l u); cbn [c_vars core_con core_var]; rewrite app_length; simpl; lia |]. split; [now destruct (fixed_rhs l u) |].
      intros a. set (n := List.length (c_vars c)).
      assert (u = of_int 0 \/ u = of_int 1) as Hu.
      { subst u. destruct (num_eqb u0 PInf) eqn:E; auto. destruct D as (_ & _ & _ & D). destruct (D eq_refl) as [_ [D2 | [D2 | D2]]]; auto. apply num_eqb_iff in D2. congruence. }
      assert (acceptable Binary l u) as Au.
      { destruct D as (D1 & D2 & D3 & D4). destruct (D4 eq_refl) as [D5 D6]. subst u. destruct (num_eqb u0 PInf) eqn:E; [| repeat (split; auto)].
        split; [| split; [auto |]; split; [unfold of_int; discriminate | auto]]. rewrite of_int_0, of_int_1 in *. pose proof one_units_pos. destruct D5 as [-> | ->]; cbn [num_ltb]; apply Z.ltb_ge; lia. }
      assert (feasible match fixed_rhs l u with Some rhs => core_con (core_var c (mkV Binary b1 b2)) (CFix n rhs) | None => core_var c (mkV Binary b1 b2) end a <->
              feasible c a /\ allowed Binary b1 b2 (a n) /\ match fixed_rhs l u with Some rhs => num_eqb (Fin (a n)) rhs = true | None => True end) as ->.
      { destruct (fixed_rhs l u); [rewrite feasible_con |]; rewrite feasible_var, var_allows_iff; fold n; cbn [con_allows]; tauto. }
      assert ((forall z, Fin z = of_int 0 \/ Fin z = of_int 1 -> num_ltb (Fin z) (of_int 0) = false /\ num_ltb (of_int 1) (Fin z) = false)) as Z01.
      { intros z. rewrite of_int_0, of_int_1. pose proof one_units_pos. intros [Hz | Hz]; injection Hz as ->; cbn [num_ltb]; rewrite !Z.ltb_ge; lia. }
      assert (Fin (a n) = of_int 0 \/ Fin (a n) = of_int 1 -> (num_ltb u (Fin (a n)) = false <-> num_ltb u0 (Fin (a n)) = false)) as Hu0.
      { intros Hz. subst u. destruct (num_eqb u0 PInf) eqn:E; [| tauto]. apply num_eqb_iff in E. subst u0. destruct (Z01 _ Hz) as [_ ->]. simpl. tauto. }
      unfold allowed. split.
      * intros (H1 & (H2 & H3 & H4) & H5). split; auto. apply (fixed_ok l u) in H5; auto. destruct H5 as [H5 H6]. rewrite <- Hu0; auto.
      * intros (H1 & H2 & H3 & H4). split; auto. rewrite <- Hu0 in H3 by auto. destruct (Z01 _ H4) as [H5 H6]. split; [| now apply fixed_ok].
        destruct Hb as [[-> ->] | [-> ->]]; auto.
  - unfold add_var. destruct (check_var lb ub type) as [[[k l] u] |] eqn:E.
    + split; [destruct e, k; discriminate |]. intros H. exfalso. apply H. apply check_var_iff in E as (u0 & A & B & C & D & F). exists k, l, u0. auto.
    + split; auto. intros _ (k & l & u & A & B & C & D).
      assert (check_var lb ub type = Some (k, l, match k with Binary => if num_eqb u PInf then of_int 1 else u | _ => u end)) as X by (apply check_var_iff; exists u; auto). congruence.
Qed.

(** ** The same calls on two engines *)

(** Two core models with the same meaning. *)
Definition same_meaning (c c' : core) : Prop :=
  List.length (c_vars c) = List.length (c_vars c') /\ c_obj c = c_obj c' /\ forall a, feasible c a <-> feasible c' a.

Definition no_indicator (op : bop) : Prop := match op with BInd _ _ _ => False | _ => True end.

Lemma bstep_same : forall e e' c c' op, same_meaning c c' -> (no_indicator op \/ e <> Cplex /\ e' <> Cplex) ->
  snd (bstep e c op) = snd (bstep e' c' op) /\ same_meaning (fst (bstep e c op)) (fst (bstep e' c' op)).
Proof.
  intros e e' c c' op M Hop. destruct M as (M1 & M2 & M3). destruct op as [lb ub type | f | i on f | f sense]; cbn [bstep].
  - destruct (add_var_exact e c lb ub type) as [A1 A2], (add_var_exact e' c' lb ub type) as [B1 B2].
    destruct (add_var e c lb ub type) as [d |] eqn:E, (add_var e' c' lb ub type) as [d' |] eqn:E'; cbn [fst snd].
    + split; auto. destruct (A1 d eq_refl) as (k & l & u & K & L & U & Ac & N & O & F). destruct (B1 d' eq_refl) as (k' & l' & u' & K' & L' & U' & Ac' & N' & O' & F').
      rewrite K in K'. injection K' as <-. rewrite L in L'. injection L' as <-. rewrite U in U'. injection U' as <-.
      split; [congruence |]. split; [congruence |]. intros a. now rewrite F, F', M3, M1.
    + exfalso. destruct (A1 d eq_refl) as (k & l & u & K & L & U & Ac & _). apply (proj1 B2 eq_refl). eauto 10.
    + exfalso. destruct (B1 d' eq_refl) as (k & l & u & K & L & U & Ac & _). apply (proj1 A2 eq_refl). eauto 10.
    + split; auto. split; auto.
  - cbn [fst snd]. split; auto. split; auto. split; auto. intros a. now rewrite !feasible_con, M3.
  - destruct Hop as [[] | [N N']].
    assert (bstep e c (BInd i on f) = (core_con c (CInd i (truthy on) f), false)) as X by (destruct e; try congruence; reflexivity).
    assert (bstep e' c' (BInd i on f) = (core_con c' (CInd i (truthy on) f), false)) as Y by (destruct e'; try congruence; reflexivity).
    cbn [bstep] in X, Y. rewrite X, Y. cbn [fst snd]. split; auto. split; auto. split; auto. intros a. now rewrite !feasible_con, M3.
  - destruct (String.eqb sense "maximize"); [| destruct (String.eqb sense "minimize")]; cbn [fst snd]; (split; auto); (split; auto).
Qed.

Theorem brun_same : forall e e' ops c c', same_meaning c c' -> (Forall no_indicator ops \/ e <> Cplex /\ e' <> Cplex) ->
  snd (brun e c ops) = snd (brun e' c' ops) /\ same_meaning (fst (brun e c ops)) (fst (brun e' c' ops)).
Proof.
  intros e e'. induction ops as [| op ops IH]; intros c c' M Hop; [cbn; auto |]. cbn [brun].
  destruct (bstep_same e e' c c' op M) as [A B]. { destruct Hop as [H | H]; auto. left. now inversion H. }
  destruct (bstep e c op) as [d r], (bstep e' c' op) as [d' r']. cbn [fst snd] in A, B. subst r'.
  destruct (IH d d' B) as [C D]. { destruct Hop as [H | H]; auto. left. now inversion H. }
  destruct (brun e d ops) as [g rs], (brun e' d' ops) as [g' rs']. cbn [fst snd] in *. split; auto. congruence.
Qed.

(** ** Solutions *)

(** A result an engine can leave for a model of [n] variables: values for each of them when solved, none when it
    failed. *)
Definition lawful (n : nat) (r : result) : Prop :=
  (r_status r = SOptimal -> exists l, r_values r = Some l) /\ (r_status r = SFailed -> r_values r = None) /\
  forall l, r_values r = Some l -> List.length l = n.

Definition no_core_var (op : sop) : Prop := match op with SCoreVar _ => False | _ => True end.
Definition builds (op : sop) : Prop := match op with SBuild _ => True | _ => False end.

(** The number of variables [ops] end with, if all come from add_var. *)
Definition var_count (s : session) : nat := List.length (c_vars (s_core s)).

Lemma bstep_count : forall e c op, List.length (c_vars c) <= List.length (c_vars (fst (bstep e c op))) /\
  match op with
  | BVar _ _ _ => List.length (c_vars (fst (bstep e c op))) = if snd (bstep e c op) then List.length (c_vars c) else S (List.length (c_vars c))
  | _ => List.length (c_vars (fst (bstep e c op))) = List.length (c_vars c)
  end.
Proof.
  intros e c op. destruct op as [lb ub type | f | i on f | f sense]; cbn [bstep].
  - destruct (add_var e c lb ub type) as [d |] eqn:E; cbn [fst snd]; [| lia]. destruct (proj1 (add_var_exact e c lb ub type) d E) as (k & l & u & _ & _ & _ & _ & N & _). lia.
  - cbn. lia.
  - destruct e; cbn; lia.
  - destruct (String.eqb sense "maximize"); [| destruct (String.eqb sense "minimize")]; cbn; lia.
Qed.

(** In a history without variables added to the core model, the index of every variable is its position. *)
Definition index_ok (s : session) : Prop := s_index s = map (fun i => (i, i)) (seq 0 (var_count s)).

Lemma index_ok_step : forall s op, no_core_var op -> index_ok s -> index_ok (sstep Xpress s op).
Proof.
  unfold index_ok, var_count. intros s op Hop H. destruct op as [b | v | r]; [| destruct Hop | exact H]. cbn [sstep].
  pose proof (bstep_count Xpress (s_core s) b) as [_ C]. destruct (bstep Xpress (s_core s) b) as [c raised]. cbn [fst snd] in C. cbn [s_core s_index].
  destruct b as [lb ub type | f | i on f | f sense]; cbn [note_var]; try (rewrite C; exact H). destruct raised; rewrite C; [exact H |].
  rewrite H at 1. rewrite seq_S, map_app. cbn [map Nat.add]. f_equal. f_equal. f_equal. rewrite H, map_length, seq_length. reflexivity.
Qed.

Lemma index_ok_run : forall ops s, Forall no_core_var ops -> index_ok s -> index_ok (srun Xpress s ops).
Proof. unfold srun. induction ops as [| op ops IH]; intros s F H; auto. inversion F; subst. cbn [fold_left]. apply IH; auto. now apply index_ok_step. Qed.

Lemma index_get : forall n i, i < n -> dget Nat.eqb (map (fun i => (i, i)) (seq 0 n)) i = Some i.
Proof.
  intros n i L. assert (forall a, a <= i -> i < a + n -> dget Nat.eqb (map (fun i => (i, i)) (seq a n)) i = Some i) as X; [| apply X; lia].
  clear L. induction n as [| n IH]; intros a L1 L2; [lia |]. cbn [seq map dget]. destruct (Nat.eqb_spec a i); [congruence |]. apply IH; lia.
Qed.

Lemma builds_keep : forall e later s, Forall builds later -> let s' := srun e s later in
  s_xsol s' = s_xsol s /\ s_csol s' = s_csol s /\ s_gsol s' = s_gsol s /\ var_count s <= var_count s'.
Proof.
  intros e. unfold srun. induction later as [| op later IH]; intros s F; [cbn; auto |]. inversion F as [| ? ? B F']; subst. cbn [fold_left].
  destruct op as [b | |]; try contradiction. destruct (IH (sstep e s (SBuild b)) F') as (A1 & A2 & A3 & A4).
  cbn [sstep] in *. pose proof (proj1 (bstep_count e (s_core s) b)) as C. destruct (bstep e (s_core s) b) as [c raised]. cbn [fst] in C. cbn [s_xsol s_csol s_gsol] in *.
  unfold var_count in *. cbn [s_core] in A4. cbv zeta in *. repeat (split; [congruence |]). lia.
Qed.

(** [optimize] says yes exactly if there are values (Gurobi: for a model with variables). *)
Lemma optimized_iff : forall e s r, lawful (var_count s) r -> (e = Gurobi -> 0 < var_count s) ->
  (optimized e s r = true <-> exists l, r_values r = Some l).
Proof.
  intros e s r (L1 & L2 & L3) Hn. unfold optimized, var_count in *. destruct (r_status r) eqn:Es.
  - destruct (L1 eq_refl) as [l El]. rewrite El. destruct e; split; eauto.
  - destruct (r_values r) as [l |] eqn:El; [destruct e; split; eauto |]. destruct e; split; try discriminate; intros H; try (destruct H; discriminate).
    destruct (c_vars (s_core s)); [specialize (Hn eq_refl); simpl in Hn; lia | discriminate].
  - rewrite (L2 eq_refl). destruct e; split; try discriminate; intros [l H]; discriminate.
Qed.

Theorem value_after : forall e before r later, Forall no_core_var before -> Forall builds later ->
  let s := srun e new_session before in
  lawful (var_count s) r -> forall l, r_values r = Some l -> r_status r <> SFailed ->
  forall i, i < var_count s -> get_solution_value e (srun e (sstep e s (SSolve r)) later) i = nth_error l i.
Proof.
  intros e before r later Hb Hl s Lr l El Hs i Hi. destruct Lr as (L1 & L2 & L3). pose proof (L3 l El) as Ll.
  destruct (builds_keep e later (sstep e s (SSolve r)) Hl) as (A1 & A2 & A3 & A4). cbn [sstep] in *.
  assert (var_count (remember e s r) = var_count s) as Vc by (destruct e; reflexivity). rewrite Vc in A4.
  assert (optimized e s r = true) as Ho.
  { unfold optimized. rewrite El. destruct e, (r_status r); auto; congruence. }
  destruct e; cbn [get_solution_value].
  - rewrite A3. cbn [remember s_gsol]. now rewrite El.
  - rewrite A2. cbn [remember s_csol]. now rewrite Ho, El.
  - assert (index_ok (srun Xpress (remember Xpress s r) later)) as X.
    { apply index_ok_run; [eapply Forall_impl; [| exact Hl]; intros op; now destruct op |]. apply (index_ok_step s (SSolve r)); [exact I |].
      apply index_ok_run; auto. reflexivity. }
    unfold index_ok in X. rewrite X, index_get by lia. rewrite A1. cbn [remember s_xsol]. now rewrite Ho, El.
Qed.

(** ** Parameters *)

Definition known_parameter (e : engine) (k : string) : Prop := k = "MIP_Gap" \/ k = "time_limit" /\ e <> Cplex.

Lemma set_parameter_iff : forall e p k v, (known_parameter e k -> set_parameter e p k v = Some (dset String.eqb p k v)) /\ (~ known_parameter e k -> set_parameter e p k v = None).
Proof.
  intros e p k v. unfold set_parameter, known_parameter. destruct (String.eqb_spec k "MIP_Gap") as [-> | N]; [split; tauto |].
  destruct (String.eqb_spec k "time_limit") as [-> | N']; [| split; tauto].
  split; [intros [H | [_ H]]; [discriminate | destruct e; congruence] | intros H; destruct e; auto; exfalso; apply H; right; split; auto; discriminate].
Qed.

Lemma dget_dset_str : forall (p : params) k v k', dget String.eqb (dset String.eqb p k v) k' = if String.eqb k k' then Some v else dget String.eqb p k'.
Proof.
  induction p as [| [a b] p IH]; intros k v k'; cbn [dset dget]; auto. destruct (String.eqb_spec a k) as [-> | N]; cbn [dget].
  - destruct (String.eqb k k'); auto.
  - rewrite IH. destruct (String.eqb_spec a k') as [-> |]; auto. destruct (String.eqb_spec k k'); congruence.
Qed.

Theorem set_parameters_ok : forall e kw p, NoDup (map fst kw) -> (forall k v, In (k, v) kw -> known_parameter e k) ->
  exists p', set_parameters e p kw = (p', false) /\
    forall k, dget String.eqb p' k = match dget String.eqb kw k with Some v => Some v | None => dget String.eqb p k end.
Proof.
  intros e. induction kw as [| [k v] kw IH]; intros p N H; [exists p; split; auto |]. cbn [map fst] in N. inversion N as [| ? ? N1 N2]; subst.
  cbn [set_parameters]. rewrite (proj1 (set_parameter_iff e p k v)) by (eapply H; simpl; eauto).
  destruct (IH (dset String.eqb p k v) N2) as (p' & E & G); [intros; eapply H; simpl; eauto |]. exists p'. split; auto. intros k'. rewrite G, dget_dset_str.
  cbn [dget]. destruct (String.eqb_spec k k') as [-> |]; auto.
  destruct (dget String.eqb kw k') as [w |] eqn:Ew; auto. exfalso. apply N1. apply dget_In in Ew as (k0 & E0 & Hin). apply String.eqb_eq in E0. subst k0. now apply (in_map fst) in Hin.
Qed.

Theorem set_parameters_raises : forall e kw p, snd (set_parameters e p kw) = true <-> exists k v, In (k, v) kw /\ ~ known_parameter e k.
Proof.
  intros e. induction kw as [| [k v] kw IH]; intros p; cbn [set_parameters].
  - split; [discriminate | intros (k & v & [] & _)].
  - destruct (set_parameter e p k v) as [p' |] eqn:E.
    + rewrite IH. assert (known_parameter e k) as K.
      { unfold known_parameter. unfold set_parameter in E. destruct (String.eqb_spec k "MIP_Gap"); auto. destruct (String.eqb_spec k "time_limit"); [| discriminate]. right. split; auto. destruct e; congruence. }
      split; [intros (a & b & H1 & H2); exists a, b; simpl; auto |]. intros (a & b & [H1 | H1] & H2); [injection H1 as <- <-; contradiction | eauto].
    + split; auto. intros _. exists k, v. split; [simpl; auto |]. intros K. rewrite (proj1 (set_parameter_iff e p k v) K) in E. discriminate.
Qed.

(** ** Progress *)

Lemma bounds_ok_le : forall l u, l <> PInf -> num_ltb u l = false -> bounds_ok l u = true.
Proof.
  intros [| x |] [| y |] Hl H; cbn [num_ltb bounds_ok] in *; auto; try congruence. apply Z.ltb_ge in H. apply Z.leb_le.
  assert (0 < tol_den)%Z by reflexivity. assert (0 < tol_num)%Z by reflexivity. nia.
Qed.
