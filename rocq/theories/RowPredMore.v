(** * Row predicates: the loops as lists of actions, and the theorems. *)
From Coq Require Import ZArith Bool List String Arith Lia.
From Verif Require Import PyVal PyValFacts PyDict PyDictFacts ListFacts TypeDict Data FindTypes FindTypesFacts FK Factory
  InfIO Params RowPred RowPredFacts.
Import ListNotations.
Local Open Scope string_scope.
Local Open Scope list_scope.

Lemma filter_all {A} (p : A -> bool) l : (forall x, In x l -> p x = true) -> filter p l = l.
Proof.
  induction l as [|x l IH]; intros H; auto. cbn. rewrite (H x (or_introl eq_refl)), IH; auto. intros y Hy. apply H. now right.
Qed.

Lemma filter_none {A} (p : A -> bool) l : (forall x, In x l -> p x = false) -> filter p l = [].
Proof.
  induction l as [|x l IH]; intros H; auto. cbn. rewrite (H x (or_introl eq_refl)). apply IH. intros y Hy. apply H. now right.
Qed.

Section Sim.
  Variables K D : Type.
  Variable no_kw : K.
  Variable pred : nat -> list (string * value) -> K -> called value.
  Variable maker : nat -> D -> called (kwres K).
  Variable convert : called (D + string).
  Variable converted : tpn -> bool.
  Variable self : D.
  Variable show : value -> string.
  Variable good_param : list (string * value) -> value.
  Variable handled : bool.

  Notation fstate := (fstate K D).
  Notation mkFS := (mkFS K D).
  Notation s_conv := (s_conv K D).
  Notation s_memo := (s_memo K D).
  Notation s_count := (s_count K D).
  Notation call_pred := (call_pred K pred good_param).
  Notation kwargs := (kwargs K D no_kw maker convert converted self handled).
  Notation guarded := (guarded handled).
  Notation judged := (judged show).
  Notation row_step := (row_step K D pred show good_param handled).
  Notation pred_step := (pred_step K D no_kw pred maker convert converted self show good_param handled).
  Notation find_rows := (find_rows K D no_kw pred maker convert converted self show good_param handled).
  Notation ensure_converted := (ensure_converted K D convert handled).
  Notation make_kwargs := (make_kwargs K D maker self handled).
  Notation kw_message := (kw_message K).

  (** ** What should happen *)

  (** The converted dat (or the text that stands for a failed conversion). *)
  Definition conv_now : called (D + string) :=
    match convert with
    | Returned c => Returned c
    | Raised m => if handled then Returned (inr (exc_text m)) else Raised m
    end.

  (** The kwargs of a predicate, each maker being called on its own dat. *)
  Definition kw_of (tp : tpn) (r : rpi) : called (kwres K) :=
    match r_maker r with
    | None => Returned (KDict no_kw)
    | Some n =>
        match (if converted tp then conv_now else Returned (inl self)) with
        | Raised m => Raised m
        | Returned (inr m) => Returned (KText m)
        | Returned (inl d) =>
            match maker n d with
            | Returned kw => Returned kw
            | Raised m => if handled then Returned (KText (exc_text m)) else Raised m
            end
        end
    end.

  Definition row_act (tp : tpn) (r : rpi) (k : K) (x : rowid * list (string * value)) : list act :=
    match guarded r (call_pred (r_fn r) (snd x) k) with
    | Raised _ => [ARaise]
    | Returned v => match judged r v with None => [] | Some m => [ARow tp (fst x, m)] end
    end.

  Definition acts_of (sch : schema) (d : dat) (x : string * (value * rpi)) : list act :=
    let tp := (fst x, fst (snd x)) in
    match kw_of tp (snd (snd x)) with
    | Raised _ => [ARaise]
    | Returned kw =>
        match kw, kw_message kw with
        | KDict k, _ => flat_map (row_act tp (snd (snd x)) k) (pred_rows (ts_of sch (fst x)) (d (fst x)))
        | _, Some m => [AAll tp m]
        | _, None => []
        end
    end.

  Definition flat (l : list (string * list (value * rpi))) : list (string * (value * rpi)) :=
    flat_map (fun tp => map (pair (fst tp)) (snd tp)) l.

  (** ** The loops *)

  Definition proj (s : fstate) : rstate := (s_rtn s, s_count s, s_raised s).
  Definition with_proj (s : fstate) (p : rstate) : fstate :=
    mkFS (s_conv s) (s_memo s) (fst (fst p)) (snd (fst p)) (snd p).

  Lemma row_loop mx tp r k rows : forall s,
    for_each (row_step mx tp r k) rows s =
    let (p, b) := for_each (do_act mx) (flat_map (row_act tp r k) rows) (proj s) in (with_proj s p, b).
  Proof.
    induction rows as [|x rows IH]; intros s; cbn [for_each flat_map].
    - now destruct s.
    - rewrite for_each_app. unfold RowPred.row_step at 1. unfold row_act at 1.
      destruct (guarded r (call_pred (r_fn r) (snd x) k)) as [v|m]; cbn [for_each].
      + destruct (judged r v) as [m|]; cbn [for_each].
        * cbn [do_act proj]. cbn [RowPred.s_count with_rtn].
          destruct (trips mx (S (s_count s))) eqn:E.
          -- reflexivity.
          -- rewrite IH. cbn [proj with_rtn RowPred.s_rtn RowPred.s_count RowPred.s_raised record].
             unfold proj, with_rtn; cbn.
             destruct (for_each (do_act mx) _ _) as [p b]. reflexivity.
        * rewrite IH. reflexivity.
      + reflexivity.
  Qed.

  (** No maker serves both converted and unconverted predicates. *)
  Definition consistent (l : list (string * list (value * rpi))) : Prop :=
    forall x y n, In x (flat l) -> In y (flat l) ->
      r_maker (snd (snd x)) = Some n -> r_maker (snd (snd y)) = Some n ->
      converted (fst x, fst (snd x)) = converted (fst y, fst (snd y)).

  Definition inv (L : list (string * (value * rpi))) (s : fstate) : Prop :=
    s_raised s = false /\
    (forall c, s_conv s = Some c -> conv_now = Returned c) /\
    (forall n kw, dget Nat.eqb (s_memo s) n = Some kw -> forall x, In x L -> r_maker (snd (snd x)) = Some n ->
       kw_of (fst x, fst (snd x)) (snd (snd x)) = Returned kw).

  Lemma kw_same x y n : 
    r_maker (snd (snd x)) = Some n -> r_maker (snd (snd y)) = Some n ->
    converted (fst x, fst (snd x)) = converted (fst y, fst (snd y)) ->
    kw_of (fst x, fst (snd x)) (snd (snd x)) = kw_of (fst y, fst (snd y)) (snd (snd y)).
  Proof. intros H1 H2 H3. unfold kw_of. now rewrite H1, H2, H3. Qed.

  Lemma kwargs_ok L s x : 
    (forall y z n, In y L -> In z L -> r_maker (snd (snd y)) = Some n -> r_maker (snd (snd z)) = Some n ->
      converted (fst y, fst (snd y)) = converted (fst z, fst (snd z))) ->
    In x L -> inv L s ->
    let (s1, kw) := kwargs s (fst x, fst (snd x)) (snd (snd x)) in
    s_rtn s1 = s_rtn s /\ s_count s1 = s_count s /\
    match kw_of (fst x, fst (snd x)) (snd (snd x)) with
    | Raised _ => s_raised s1 = true
    | Returned kw' => kw' = kw /\ inv L s1
    end.
  Proof.
    intros G Hx (Hr & Hc & Hm). unfold RowPred.kwargs. 
    destruct (r_maker (snd (snd x))) as [n|] eqn:M.
    2: { unfold kw_of. rewrite M. repeat split; auto. }
    set (tp := (fst x, fst (snd x))) in *.
    (* the conversion *)
    assert (Hs1 : let s1 := if converted tp then ensure_converted s else s in
       s_rtn s1 = s_rtn s /\ s_count s1 = s_count s /\ s_memo s1 = s_memo s /\
       (forall c, s_conv s1 = Some c -> conv_now = Returned c) /\
       (if converted tp then
          match conv_now with
          | Returned c => s_raised s1 = false /\ s_conv s1 = Some c
          | Raised _ => s_raised s1 = true
          end
        else s_raised s1 = false)).
    { destruct (converted tp); cbn zeta; [|repeat split; auto].
      unfold RowPred.ensure_converted. destruct (s_conv s) as [c|] eqn:C.
      - rewrite (Hc c eq_refl). repeat split; auto. intros c' Hc'. rewrite C in Hc'. congruence.
      - unfold conv_now in *. destruct convert as [c|m].
        + cbn. repeat split; auto. congruence.
        + destruct handled; cbn; repeat split; auto; congruence. }
    cbn zeta in Hs1. set (s1 := if converted tp then ensure_converted s else s) in *.
    destruct Hs1 as (E1 & E2 & E3 & E4 & E5).
    destruct (s_raised s1) eqn:R1.
    { split; [exact E1|]. split; [exact E2|]. unfold kw_of. rewrite M. fold tp.
      destruct (converted tp); [|discriminate].
      destruct conv_now as [c|m]; [destruct E5; discriminate|exact R1]. }
    rewrite E3. destruct (dget Nat.eqb (s_memo s) n) as [kw|] eqn:Q.
    - split; [exact E1|]. split; [exact E2|]. unfold tp. rewrite (Hm n kw Q x Hx M). split; auto.
      split; [exact R1|]. split; [exact E4|]. intros n' kw'. rewrite E3. apply Hm.
    - assert (Hmk : make_kwargs s1 (converted tp) n = kw_of tp (snd (snd x)) \/
                    (exists m m', make_kwargs s1 (converted tp) n = Raised m /\ kw_of tp (snd (snd x)) = Raised m')).
      { unfold RowPred.make_kwargs, kw_of. rewrite M. destruct (converted tp).
        - destruct conv_now as [c|m]; [|discriminate]. destruct E5 as [_ ->]. destruct c; auto.
        - auto. }
      assert (Hcase : match make_kwargs s1 (converted tp) n with
                      | Returned kw => kw_of tp (snd (snd x)) = Returned kw
                      | Raised _ => exists m, kw_of tp (snd (snd x)) = Raised m
                      end).
      { destruct Hmk as [-> | (m & m' & -> & ->)]; [|eauto]. destruct (kw_of tp (snd (snd x))); eauto. }
      destruct (make_kwargs s1 (converted tp) n) as [kw|m].
      + rewrite Hcase. cbn. split; [exact E1|]. split; [exact E2|]. split; auto.
        split; [reflexivity|]. split; [exact E4|]. cbn.
        intros n' kw' H y Hy My.
        destruct (Nat.eqb n n') eqn:N.
        * apply Nat.eqb_eq in N. subst n'.
          rewrite (dget_dset_same Nat.eqb Nat.eqb_refl) in H. injection H as <-.
          rewrite <- Hcase. unfold tp. apply (kw_same y x n); auto. 
          now apply (G y x n).
        * rewrite (dget_dset_other Nat.eqb Nat.eqb_sym) in H; [now apply (Hm n')| |exact N].
          intros a b c A B. apply Nat.eqb_eq in A, B. subst. apply Nat.eqb_refl.
      + destruct Hcase as [m' ->]. cbn. auto.
  Qed.

  Lemma sim mx sch d L : 
    (forall y z n, In y L -> In z L -> r_maker (snd (snd y)) = Some n -> r_maker (snd (snd z)) = Some n ->
      converted (fst y, fst (snd y)) = converted (fst z, fst (snd z))) ->
    forall l s, incl l L -> inv L s ->
    let (s', b) := for_each (fun x => pred_step mx sch d (fst x) (snd x)) l s in
    (proj s', b) = for_each (do_act mx) (flat_map (acts_of sch d) l) (proj s).
  Proof.
    intros G. induction l as [|x l IH]; intros s Hl Hi; cbn [for_each flat_map]; auto.
    rewrite for_each_app. unfold RowPred.pred_step at 1, acts_of at 1.
    pose proof (kwargs_ok L s x G (Hl x (or_introl eq_refl)) Hi) as Hk.
    destruct (kwargs s (fst x, fst (snd x)) (snd (snd x))) as [s1 kw]. destruct Hk as (E1 & E2 & E3).
    destruct (kw_of (fst x, fst (snd x)) (snd (snd x))) as [kw'|m].
    - destruct E3 as [-> Hi1]. rewrite (proj1 Hi1).
      assert (Hp : proj s1 = proj s).
      { unfold proj. rewrite E1, E2, (proj1 Hi1), (proj1 Hi). reflexivity. }
      assert (Hnext : forall p, snd p = false -> inv L (with_proj s1 p)).
      { intros p Hp'. destruct Hi1 as (_ & A & B). split; [exact Hp'|]. split; assumption. }
      assert (Htail : forall s2, inv L s2 ->
        let (s', b) := for_each (fun x => pred_step mx sch d (fst x) (snd x)) l s2 in
        (proj s', b) = for_each (do_act mx) (flat_map (acts_of sch d) l) (proj s2)).
      { intros s2 H2. apply IH; auto. intros y Hy. apply Hl. now right. }
      assert (Hone : forall m, 
        let (s', b) := (let s' := with_rtn K D s1 (dset tpn_eqb (s_rtn s1) (fst x, fst (snd x)) (EAll m)) in
                         if trips mx (s_count s') then (s', true) else
                         for_each (fun x => pred_step mx sch d (fst x) (snd x)) l s') in
        (proj s', b) =
        match for_each (do_act mx) [AAll (fst x, fst (snd x)) m] (proj s) with
        | (s', true) => (s', true)
        | (s', false) => for_each (do_act mx) (flat_map (acts_of sch d) l) s'
        end).
      { intros m. cbn zeta. cbn [for_each]. rewrite <- Hp. unfold do_act at 1, proj at 2. cbn [record].
        cbn [with_rtn RowPred.s_count].
        destruct (trips mx (S (s_count s1))) eqn:T.
        - reflexivity.
        - match goal with |- context [for_each _ l ?s0] => pose proof (Htail s0) as H end.
          unfold proj in H at 2. cbn [with_rtn RowPred.s_count RowPred.s_rtn RowPred.s_raised] in H. apply H.
          destruct Hi1 as (A & B & C). split; [exact A|]. split; assumption. }
      destruct kw as [k|m|]; cbn [RowPred.kw_message].
      + rewrite row_loop, Hp.
        destruct (for_each (do_act mx) _ (proj s)) as [[[rtn c] ra] b] eqn:F.
        destruct b; [reflexivity|].
        assert (ra = false) as ->.
        { clear -F Hi. assert (P : snd (proj s) = false) by apply Hi. revert F P. generalize (proj s).
          induction (flat_map _ _) as [|a acts IHa]; intros [[r0 c0] ra0] F P; cbn in F.
          - injection F as _ _ <-. exact P.
          - destruct a; [discriminate| |]; destruct (trips mx (S c0)); try discriminate; eapply IHa; eauto. }
        apply (Htail (with_proj s1 (rtn, c, false))). now apply Hnext.
      + specialize (Hone (if contains "Exception<" m then m else "predicate_kwargs_maker failed to return a dict")).
        cbn zeta in Hone |- *. destruct (trips mx _); exact Hone.
      + specialize (Hone "predicate_kwargs_maker failed to return a dict").
        cbn zeta in Hone |- *. destruct (trips mx _); exact Hone.
    - rewrite E3. cbn [for_each]. unfold do_act at 1, proj at 2. unfold proj. now rewrite E1, E2, E3.
  Qed.

  Definition is_raise (a : act) : bool := match a with ARaise => true | _ => false end.

  (** The whole search. *)
  Lemma find_acts l sch d mx : consistent l ->
    find_rows l sch d mx =
    if num_ltb (of_int 0) mx then
      let '((rtn, c, ra), b) := for_each (do_act mx) (flat_map (acts_of sch d) (flat l)) ([], 0, false) in
      if ra : bool then Raise else Ret rtn
    else Raise.
  Proof.
    intros G. unfold RowPred.find_rows. destruct (num_ltb (of_int 0) mx); auto.
    assert (for_each (fun tp => for_each (pred_step mx sch d (fst tp)) (snd tp)) l (mkFS None [] [] 0 false) =
            for_each (fun x => pred_step mx sch d (fst x) (snd x)) (flat l) (mkFS None [] [] 0 false)) as ->.
    { unfold flat. rewrite <- for_each_flat. apply for_each_ext. intros [t ps] s _. cbn [fst snd].
      rewrite for_each_map. reflexivity. }
    pose proof (sim mx sch d (flat l) G (flat l) (mkFS None [] [] 0 false) (incl_refl _)) as H.
    destruct (for_each _ (flat l) (mkFS None [] [] 0 false)) as [s' b].
    unfold proj in H at 2. cbn [RowPred.s_rtn RowPred.s_count RowPred.s_raised] in H.
    rewrite <- H; [reflexivity|]. split; [reflexivity|]. split; cbn; intros; discriminate.
  Qed.

  (** ** The theorems *)

  (** Pairwise different tables, and different names within a table. *)
  Definition wf_preds (l : list (string * list (value * rpi))) : Prop :=
    NoDup (map fst l) /\ forall t ps, In (t, ps) l -> keys_distinct pyeq (map fst ps).

  Definition pkey (x : string * (value * rpi)) : tpn := (fst x, fst (snd x)).

  Lemma in_flat l t pn r : In (t, (pn, r)) (flat l) <-> exists ps, In (t, ps) l /\ In (pn, r) ps.
  Proof.
    unfold flat. rewrite in_flat_map. split.
    - intros ([t' ps] & H1 & H2). apply in_map_iff in H2 as (y & [= <- <-] & H2). eauto.
    - intros (ps & H1 & H2). exists (t, ps). split; auto. apply in_map_iff. exists (pn, r). auto.
  Qed.

  Lemma flat_unique l : wf_preds l -> forall tp,
    (filter (fun x => tpn_eqb (pkey x) tp) (flat l) = []) \/
    (exists x, filter (fun x => tpn_eqb (pkey x) tp) (flat l) = [x]).
  Proof.
    intros [N Hd] tp. induction l as [|[t ps] l IH]; [now left|].
    inversion N as [|? ? Ht N']; subst. 
    assert (IH' := IH N' (fun t' ps' H => Hd t' ps' (or_intror H))). clear IH.
    unfold flat. cbn [flat_map fst snd]. rewrite filter_app. fold (flat l).
    assert (Hps : (filter (fun x => tpn_eqb (pkey x) tp) (map (pair t) ps) = []) \/
                  (exists x, filter (fun x => tpn_eqb (pkey x) tp) (map (pair t) ps) = [x])).
    { pose proof (Hd t ps (or_introl eq_refl)) as K0. clear -K0.
      induction ps as [|[n r] ps IH]; [now left|]. cbn in K0. destruct K0 as [K1 K2].
      cbn [map filter]. destruct (tpn_eqb (pkey (t, (n, r))) tp) eqn:E0; auto.
      assert (F : pyeq n (snd tp) = true) by (unfold tpn_eqb, pkey in E0; now apply andb_prop in E0).
      right. exists (t, (n, r)). f_equal.
      destruct (IH K2) as [H|[y H]]; [exact H|]. exfalso. destruct y as [t' [n' r']].
      assert (Hin : In (t', (n', r')) (filter (fun x => tpn_eqb (pkey x) tp) (map (pair t) ps))) by (rewrite H; now left).
      apply filter_In in Hin as [Hin Q]. apply in_map_iff in Hin as ([n2 r2] & E2 & Hin).
      injection E2 as <- <- <-. unfold tpn_eqb, pkey in Q. cbn in Q. apply andb_prop in Q as [_ Q].
      assert (pyeq n n2 = true) as X by (eapply pyeq_trans; [exact F|now rewrite pyeq_sym]).
      rewrite (K1 n2) in X; [discriminate|]. apply in_map_iff. exists (n2, r2). auto. }
    destruct (String.eqb t (fst tp)) eqn:E.
    - assert (filter (fun x => tpn_eqb (pkey x) tp) (flat l) = []) as ->; [|now rewrite app_nil_r].
      destruct (filter _ (flat l)) as [|[t' [n' r']] q] eqn:F; auto. exfalso.
      assert (Hin : In (t', (n', r')) (filter (fun x => tpn_eqb (pkey x) tp) (flat l))) by (rewrite F; now left).
      apply filter_In in Hin as [Hin Q]. apply in_flat in Hin as (ps' & Hin & _).
      unfold tpn_eqb, pkey in Q. cbn in Q. apply andb_prop in Q as [Q _].
      apply String.eqb_eq in Q, E. subst. apply Ht. apply in_map_iff. exists (fst tp, ps'). auto.
    - assert (filter (fun x => tpn_eqb (pkey x) tp) (map (pair t) ps) = []) as ->; auto.
      clear -E. induction ps as [|[n r] ps IH]; auto. cbn [map filter].
      assert (tpn_eqb (pkey (t, (n, r))) tp = false) as -> by (unfold tpn_eqb, pkey; cbn [fst]; now rewrite E).
      exact IH.
  Qed.

  Lemma acts_key sch d x a tp : In a (acts_of sch d x) -> act_at tp a = true -> tpn_eqb (pkey x) tp = true.
  Proof.
    unfold acts_of. destruct (kw_of _ _) as [kw|m].
    2: { intros [<-|[]]. discriminate. }
    assert (Hall : forall m, In a [AAll (pkey x) m] -> act_at tp a = true -> tpn_eqb (pkey x) tp = true).
    { intros m [<-|[]]. auto. }
    destruct kw as [k|m|]; cbn [RowPred.kw_message]; try apply Hall.
    rewrite in_flat_map. intros (row & _ & H). unfold row_act in H.
    destruct (guarded _ _) as [v|m]; [|destruct H as [<-|[]]; discriminate].
    destruct (judged _ v) as [m|]; [|contradiction]. destruct H as [<-|[]]. auto.
  Qed.

  Lemma acts_key_all sch d x a tp : tpn_eqb (pkey x) tp = true -> In a (acts_of sch d x) ->
    is_raise a = false -> act_at tp a = true.
  Proof.
    intros Hk. unfold acts_of. destruct (kw_of _ _) as [kw|m].
    2: { intros [<-|[]]. discriminate. }
    assert (Hall : forall m, In a [AAll (pkey x) m] -> is_raise a = false -> act_at tp a = true).
    { intros m [<-|[]]. auto. }
    destruct kw as [k|m|]; cbn [RowPred.kw_message]; try apply Hall.
    rewrite in_flat_map. intros (row & _ & H). unfold row_act in H.
    destruct (guarded _ _) as [v|m]; [|destruct H as [<-|[]]; discriminate].
    destruct (judged _ v) as [m|]; [|contradiction]. destruct H as [<-|[]]. auto.
  Qed.

  Lemma at_flat sch d fl tp : existsb is_raise (flat_map (acts_of sch d) fl) = false ->
    at_tp tp (flat_map (acts_of sch d) fl) = flat_map (acts_of sch d) (filter (fun x => tpn_eqb (pkey x) tp) fl).
  Proof.
    induction fl as [|x fl IH]; intros H; auto. cbn [flat_map filter] in *.
    rewrite existsb_app in H. apply orb_false_iff in H as [H1 H2].
    unfold at_tp in *. rewrite filter_app, IH by exact H2.
    destruct (tpn_eqb (pkey x) tp) eqn:E.
    - cbn [flat_map]. f_equal. apply filter_all. intros a Ha. apply (acts_key_all sch d x); auto.
      destruct (is_raise a) eqn:R; auto.
      rewrite <- H1. symmetry. apply existsb_exists. eauto.
    - rewrite <- app_nil_l. f_equal. apply filter_none. intros a Ha.
      destruct (act_at tp a) eqn:A; auto. now rewrite (acts_key _ _ _ _ _ Ha A) in E.
  Qed.

  Lemma acts_shape sch d x : existsb is_raise (acts_of sch d x) = false ->
    (exists k m, acts_of sch d x = [AAll k m]) \/ (forall a, In a (acts_of sch d x) -> exists k y, a = ARow k y).
  Proof.
    unfold acts_of. destruct (kw_of _ _) as [kw|m]; [|discriminate].
    destruct kw as [k|m|]; cbn [RowPred.kw_message]; try (left; eauto; fail).
    intros H. right. intros a Ha. assert (is_raise a = false) as Hn.
    { destruct (is_raise a) eqn:R; auto. rewrite <- H. symmetry. apply existsb_exists. eauto. }
    apply in_flat_map in Ha as (row & _ & Ha). unfold row_act in Ha.
    destruct (guarded _ _) as [v|m]; [|destruct Ha as [<-|[]]; discriminate].
    destruct (judged _ v) as [m|]; [|contradiction]. destruct Ha as [<-|[]]. eauto.
  Qed.

  Lemma acts_clean sch d l : wf_preds l -> existsb is_raise (flat_map (acts_of sch d) (flat l)) = false ->
    clean (flat_map (acts_of sch d) (flat l)).
  Proof.
    intros W H. split.
    - intros Hin. revert H. apply eq_true_false_abs. apply existsb_exists. exists ARaise. auto.
    - intros tp. rewrite at_flat by exact H.
      destruct (flat_unique l W tp) as [E|[x E]]; rewrite E; cbn [flat_map].
      + right. intros a [].
      + rewrite app_nil_r. apply acts_shape.
        assert (Hx : In x (flat l)).
        { assert (In x (filter (fun x => tpn_eqb (pkey x) tp) (flat l))) as Hin by (rewrite E; now left).
          now apply filter_In in Hin. }
        destruct (existsb is_raise (acts_of sch d x)) eqn:R; auto.
        rewrite <- H. symmetry. apply existsb_exists in R as (a & Ha & R).
        apply existsb_exists. exists a. split; auto. apply in_flat_map. eauto.
  Qed.

  (** [r] judges [row] a failure, with message [m]. *)
  Definition fails (r : rpi) (k : K) (row : list (string * value)) (m : option string) : Prop :=
    (r_resp r = "Boolean" /\ m = None /\
      ((exists v, call_pred (r_fn r) row k = Returned v /\ truthy v = false) \/
       (handled = true /\ exists e, call_pred (r_fn r) row k = Raised e))) \/
    (r_resp r = "Error Message" /\
      ((exists v, call_pred (r_fn r) row k = Returned v /\ v <> VBool true /\ m = Some (show v)) \/
       (handled = true /\ exists e, call_pred (r_fn r) row k = Raised e /\ m = Some (show (VStr (exc_text e)))))).

  Lemma row_act_In tp r k x a : In a (row_act tp r k x) ->
    (a = ARaise /\ handled = false /\ exists e, call_pred (r_fn r) (snd x) k = Raised e) \/
    (exists m, a = ARow tp (fst x, m) /\ fails r k (snd x) m).
  Proof.
    unfold row_act. intros H. 
    destruct (call_pred (r_fn r) (snd x) k) as [v|e] eqn:C; cbn [RowPred.guarded] in H.
    - unfold RowPred.judged in H. destruct (String.eqb_spec (r_resp r) "Boolean") as [B|B].
      + destruct (truthy v) eqn:T; [contradiction|]. destruct H as [<-|[]].
        right. exists None. split; auto. left. split; auto. split; auto. left. eauto.
      + destruct (String.eqb_spec (r_resp r) "Error Message") as [B'|B']; [|contradiction].
        assert (Hx : v <> VBool true -> a = ARow tp (fst x, Some (show v)) ->
                 exists m, a = ARow tp (fst x, m) /\ fails r k (snd x) m).
        { intros Hv ->. exists (Some (show v)). split; auto. right. split; auto. left. eauto. }
        destruct v as [| |[|]| | |]; try contradiction; destruct H as [<-|[]]; right; apply Hx; auto; discriminate.
    - destruct handled eqn:Hh; cbn in H.
      + right. unfold RowPred.judged in H. destruct (String.eqb_spec (r_resp r) "Boolean") as [B|B].
        * cbn in H. destruct H as [<-|[]]. exists None. split; auto. left. split; auto. split; auto. right. eauto.
        * destruct (String.eqb_spec (r_resp r) "Error Message") as [B'|B']; [|contradiction].
          destruct H as [<-|[]]. exists (Some (show (VStr (exc_text e)))). split; auto.
          right. split; auto. right. eauto.
      + destruct H as [<-|[]]. left. eauto.
  Qed.

  Lemma fails_In tp r k x m : fails r k (snd x) m -> In (ARow tp (fst x, m)) (row_act tp r k x).
  Proof.
    unfold row_act. intros [(B & -> & [(v & -> & T)|(Hh & e & ->)])|(B & [(v & -> & Hv & ->)|(Hh & e & -> & ->)])];
      cbn [RowPred.guarded]; rewrite ?Hh, ?B; unfold RowPred.judged; rewrite B; cbn [String.eqb Ascii.eqb Bool.eqb].
    - rewrite T. now left.
    - now left.
    - destruct v as [| |[|]| | |]; try (now left). congruence.
    - now left.
  Qed.

  Definition listed (rep : list (tpn * entry)) (tp : tpn) (rid : rowid) (m : option string) : Prop :=
    exists rows, dget tpn_eqb rep tp = Some (ERows rows) /\ In (rid, m) rows.

  Lemma find_inf l sch d rep : consistent l -> find_rows l sch d PInf = Ret rep ->
    existsb is_raise (flat_map (acts_of sch d) (flat l)) = false /\
    rep = fold_left record (flat_map (acts_of sch d) (flat l)) [].
  Proof.
    intros G H. rewrite find_acts in H by exact G. cbn [num_ltb of_int] in H.
    rewrite run_inf in H. change (existsb (fun a => match a with ARaise => true | _ => false end))
      with (existsb is_raise) in H.
    destruct (existsb is_raise _); [discriminate|]. injection H as <-. auto.
  Qed.

  Lemma rep_get l sch d rep x : wf_preds l -> consistent l -> find_rows l sch d PInf = Ret rep -> In x (flat l) ->
    dget tpn_eqb rep (pkey x) = entry_of (acts_of sch d x) /\ existsb is_raise (acts_of sch d x) = false.
  Proof.
    intros W G H Hx. destruct (find_inf _ _ _ _ G H) as [N ->].
    rewrite record_get by (now apply acts_clean). rewrite at_flat by exact N.
    assert (Hin : In x (filter (fun y => tpn_eqb (pkey y) (pkey x)) (flat l))).
    { apply filter_In. split; auto. apply tpn_refl. }
    destruct (flat_unique l W (pkey x)) as [E|[y E]]; rewrite E in Hin |- *; [contradiction|].
    destruct Hin as [->|[]]. cbn [flat_map]. rewrite app_nil_r. split; auto.
    destruct (existsb is_raise (acts_of sch d x)) eqn:R; auto.
    rewrite <- N. symmetry. apply existsb_exists in R as (a & Ha & R).
    apply existsb_exists. exists a. split; auto. apply in_flat_map. eauto.
  Qed.

  Lemma rows_in_In acts y : In y (rows_in acts) <-> exists k, In (ARow k y) acts.
  Proof.
    unfold rows_in. rewrite in_flat_map. split.
    - intros ([|k m|k x] & H & Hy); try contradiction. destruct Hy as [<-|[]]. eauto.
    - intros (k & H). exists (ARow k y). split; auto. now left.
  Qed.

  Lemma failures_exact l sch d rep t ps pn r k :
    wf_preds l -> consistent l -> find_rows l sch d PInf = Ret rep ->
    In (t, ps) l -> In (pn, r) ps -> kw_of (t, pn) r = Returned (KDict k) ->
    (forall rid m, listed rep (t, pn) rid m <->
       exists row, In (rid, row) (pred_rows (ts_of sch t) (d t)) /\ fails r k row m) /\
    dget tpn_eqb rep (t, pn) <> Some (ERows []) /\ (forall m, dget tpn_eqb rep (t, pn) <> Some (EAll m)).
  Proof.
    intros W G H H1 H2 Hk.
    assert (Hx : In (t, (pn, r)) (flat l)) by (apply in_flat; eauto).
    destruct (rep_get l sch d rep _ W G H Hx) as [E N]. unfold pkey in E. cbn [fst snd] in E.
    unfold acts_of in E, N. cbn [fst snd] in E, N. rewrite Hk in E, N.
    set (acts := flat_map (row_act (t, pn) r k) (pred_rows (ts_of sch t) (d t))) in *.
    assert (Hin : forall rid m, In (rid, m) (rows_in acts) <->
       exists row, In (rid, row) (pred_rows (ts_of sch t) (d t)) /\ fails r k row m).
    { intros rid m. rewrite rows_in_In. unfold acts. split.
      - intros (k' & Hin). apply in_flat_map in Hin as ([rid' row] & Hrow & Ha).
        apply row_act_In in Ha as [[? _]|(m' & Q & F)]; [discriminate|]. injection Q as -> -> ->. eauto.
      - intros (row & Hrow & F). exists (t, pn). apply in_flat_map. exists (rid, row). split; auto.
        now apply (fails_In (t, pn) r k (rid, row) m). }
    assert (Hrows : entry_of acts = None /\ rows_in acts = [] \/
                    entry_of acts = Some (ERows (rows_in acts)) /\ rows_in acts <> []).
    { assert (Hall : forall a, In a acts -> exists k' y, a = ARow k' y).
      { intros a Ha. assert (is_raise a = false) as Hn.
        { destruct (is_raise a) eqn:R; auto. rewrite <- N. symmetry. apply existsb_exists. eauto. }
        unfold acts in Ha. apply in_flat_map in Ha as (row & _ & Ha).
        apply row_act_In in Ha as [[-> _]|(m & -> & _)]; [discriminate|eauto]. }
      destruct acts as [|a acts']; [now left|]. destruct (Hall a (or_introl eq_refl)) as (k' & y & ->).
      right. cbn. split; auto. discriminate. }
    destruct Hrows as [[R1 R2]|[R1 R2]]; rewrite R1 in E; unfold listed; rewrite E.
    - split; [|split; congruence]. intros rid m. rewrite <- Hin, R2. split; [|contradiction].
      intros (rows & Q & _). discriminate.
    - split; [|split; congruence]. intros rid m. rewrite <- Hin. split.
      + intros (rows & [= <-] & Hr). exact Hr.
      + intros Hr. eauto.
  Qed.

  Lemma maker_failure l sch d rep t ps pn r kw m :
    wf_preds l -> consistent l -> find_rows l sch d PInf = Ret rep ->
    In (t, ps) l -> In (pn, r) ps -> kw_of (t, pn) r = Returned kw -> kw_message kw = Some m ->
    dget tpn_eqb rep (t, pn) = Some (EAll m).
  Proof.
    intros W G H H1 H2 Hk Hm.
    assert (Hx : In (t, (pn, r)) (flat l)) by (apply in_flat; eauto).
    destruct (rep_get l sch d rep _ W G H Hx) as [E N]. unfold pkey in E. cbn [fst snd] in E. rewrite E.
    unfold acts_of. cbn [fst snd]. rewrite Hk. destruct kw; try discriminate; now injection Hm as <-.
  Qed.

  (** Nothing but declared predicates is reported. *)
  Lemma only_declared l sch d rep tp e : wf_preds l -> consistent l -> find_rows l sch d PInf = Ret rep ->
    dget tpn_eqb rep tp = Some e -> exists t ps pn r, In (t, ps) l /\ In (pn, r) ps /\ tpn_eqb (t, pn) tp = true.
  Proof.
    intros W G H E. destruct (find_inf _ _ _ _ G H) as [N ->].
    rewrite record_get in E by (now apply acts_clean). rewrite at_flat in E by exact N.
    destruct (flat_unique l W tp) as [F|[[t [pn r]] F]].
    - rewrite F in E. discriminate.
    - assert (Hin : In (t, (pn, r)) (filter (fun x => tpn_eqb (pkey x) tp) (flat l))) by (rewrite F; now left).
      apply filter_In in Hin as [Hin Q]. apply in_flat in Hin as (ps & H1 & H2). exists t, ps, pn, r. auto.
  Qed.

  Lemma raises_exact l sch d : consistent l ->
    find_rows l sch d PInf = Raise <->
    exists t ps pn r, In (t, ps) l /\ In (pn, r) ps /\
      ((exists e, kw_of (t, pn) r = Raised e) \/
       (handled = false /\ exists k rid row e, kw_of (t, pn) r = Returned (KDict k) /\
          In (rid, row) (pred_rows (ts_of sch t) (d t)) /\ call_pred (r_fn r) row k = Raised e)).
  Proof.
    intros G. rewrite find_acts by exact G. cbn [num_ltb of_int]. rewrite run_inf.
    change (existsb (fun a => match a with ARaise => true | _ => false end)) with (existsb is_raise).
    destruct (existsb is_raise (flat_map (acts_of sch d) (flat l))) eqn:E.
    - split; [|reflexivity]. intros _. apply existsb_exists in E as (a & Ha & R).
      apply in_flat_map in Ha as ([t [pn r]] & Hx & Ha). apply in_flat in Hx as (ps & H1 & H2).
      exists t, ps, pn, r. split; auto. split; auto. unfold acts_of in Ha. cbn [fst snd] in Ha.
      destruct (kw_of (t, pn) r) as [kw|e]; [|left; eauto].
      right. destruct kw as [k|m|]; cbn [RowPred.kw_message] in Ha.
      2,3: destruct Ha as [<-|[]]; discriminate.
      apply in_flat_map in Ha as ([rid row] & Hrow & Ha).
      apply row_act_In in Ha as [(_ & Hh & e & He)|(m & -> & _)]; [|discriminate].
      split; auto. exists k, rid, row, e. auto.
    - split; [discriminate|]. intros (t & ps & pn & r & H1 & H2 & H). exfalso. revert E. apply eq_true_false_abs.
      assert (Hx : In (t, (pn, r)) (flat l)) by (apply in_flat; eauto).
      apply existsb_exists. exists ARaise. split; auto. apply in_flat_map. exists (t, (pn, r)). split; auto.
      unfold acts_of. cbn [fst snd].
      destruct H as [(e & ->)|(Hh & k & rid & row & e & -> & Hrow & He)]; [now left|].
      apply in_flat_map. exists (rid, row). split; auto. unfold row_act. cbn [snd]. rewrite He. cbn.
      rewrite Hh. now left.
  Qed.

  (** Handled exceptions never get out. *)
  Lemma handled_total l sch d : handled = true -> consistent l -> exists rep, find_rows l sch d PInf = Ret rep.
  Proof.
    intros Hh G. destruct (find_rows l sch d PInf) as [rep|] eqn:E; [eauto|]. exfalso.
    apply raises_exact in E as (t & ps & pn & r & _ & _ & [(e & H)|(Q & _)]); auto; [|congruence].
    unfold kw_of, conv_now in H. rewrite Hh in H. destruct (r_maker r) as [n|]; [|discriminate].
    destruct (converted (t, pn)).
    - destruct convert as [[dd|m]|m]; try discriminate. destruct (maker n dd); discriminate.
    - destruct (maker n self); discriminate.
  Qed.

  (** ** The bound *)

  (** One entry is part of another. *)
  Definition part (e e' : entry) : Prop :=
    match e, e' with
    | EAll m, EAll m' => m = m'
    | ERows a, ERows b => exists c, b = a ++ c
    | _, _ => False
    end.

  Lemma bounded l sch d mx n rep : wf_preds l -> consistent l ->
    num_ltb (of_int 0) mx = true -> rounds_up mx n -> find_rows l sch d PInf = Ret rep ->
    exists repm, find_rows l sch d mx = Ret repm /\ total repm = Nat.min n (total rep) /\
      forall tp e, dget tpn_eqb repm tp = Some e -> exists e', dget tpn_eqb rep tp = Some e' /\ part e e'.
  Proof.
    intros W G Hpos [Hr1 Hr2] H. destruct (find_inf _ _ _ _ G H) as [N ->].
    set (acts := flat_map (acts_of sch d) (flat l)) in *.
    assert (Hcl : clean acts) by (now apply acts_clean).
    assert (0 < n) as Hn.
    { destruct n; [|lia]. exfalso. unfold num_leb in Hr1. cbn in *. now rewrite Hpos in Hr1. }
    assert (Ht : forall c, trips mx c = Nat.leb n c).
    { intros c. unfold trips. assert (num_ltb mx PInf = true) as -> by (destruct mx; auto).
      destruct (Nat.leb n c) eqn:E.
      - apply Nat.leb_le in E. eapply num_leb_of_int_mono; eauto.
      - apply Nat.leb_gt in E. destruct (num_leb mx (of_int (Z.of_nat c))) eqn:E2; auto.
        apply Hr2 in E2. lia. }
    destruct (run_bounded mx n acts Ht [] 0 Hn) as (rtn & c & b & E & F).
    change (existsb (fun a => match a with ARaise => true | _ => false end)) with (existsb is_raise) in E, F.
    rewrite Nat.sub_0_r in E, F.
    assert (Hsplit : acts = firstn n acts ++ skipn n acts) by (symmetry; apply firstn_skipn).
    assert (Nf : existsb is_raise (firstn n acts) = false).
    { rewrite Hsplit, existsb_app in N. now apply orb_false_iff in N as [N _]. }
    assert (Hcf : clean (firstn n acts)) by (apply (clean_prefix _ (skipn n acts)); now rewrite <- Hsplit).
    exists rtn. rewrite find_acts by exact G. rewrite Hpos. fold acts. rewrite E, Nf. split; auto.
    rewrite (F Nf). rewrite !total_record by auto. split; [apply firstn_length|].
    intros tp e He. rewrite record_get in He by auto. rewrite record_get by auto.
    assert (Hat : at_tp tp acts = at_tp tp (firstn n acts) ++ at_tp tp (skipn n acts)).
    { unfold at_tp. rewrite <- filter_app. now rewrite <- Hsplit. }
    rewrite Hat. destruct (at_tp tp (firstn n acts)) as [|a q] eqn:Q; [discriminate|].
    destruct a as [|k m|k x]; cbn [entry_of app] in *.
    - exfalso. assert (In ARaise (at_tp tp (firstn n acts))) as Hin by (rewrite Q; now left).
      apply filter_In in Hin as [_ Hin]. discriminate.
    - injection He as <-. eexists. split; [reflexivity|]. reflexivity.
    - injection He as <-. eexists. split; [reflexivity|]. cbn. 
      exists (rows_in (at_tp tp (skipn n acts))). now rewrite flat_map_app.
  Qed.
End Sim.

(** ** What a predicate is shown *)

Lemma pred_rows_seen ts tb rid rw : wf_tschema ts -> wf_table ts tb -> In (rid, rw) (pred_rows ts tb) ->
  exists k r, row_in tb rid k r /\ forall f v, dget String.eqb rw f = Some v <-> cell_in ts k r f v.
Proof.
  intros Wt W H. unfold pred_rows in H. apply in_map_iff in H as ([[rid' k] r] & E & Hin).
  apply rows_of_In in Hin. injection E as -> <-. exists k, r. split; auto.
  intros f v. split.
  - intros Hd. assert (Hf : In f (tpk ts ++ tdf ts)).
    { destruct (in_dec string_dec f (tpk ts ++ tdf ts)) as [Hf|Hf]; auto. exfalso.
      destruct tb as [l|l]; cbn in *.
      - destruct W as (_ & _ & Hl). destruct Hin as [Hin _]. destruct (Hl _ _ Hin) as [L1 L2].
        rewrite full_row_get in Hd by auto.
        rewrite !dget_combine_None in Hd; [discriminate| |]; intros Q; apply Hf, in_or_app; auto.
      - rewrite dget_combine_None in Hd; [discriminate|]. intros Q. apply Hf, in_or_app; auto. }
    destruct (cell_in_exists ts tb rid k r f W Hin Hf) as [w Hw].
    pose proof (cell_in_row_cell ts tb rid k r f w Wt W Hin Hw) as Hc.
    unfold row_cell, dget_or in Hc. destruct tb; rewrite Hd in Hc; now subst.
  - intros Hc. pose proof (cell_in_row_cell ts tb rid k r f v Wt W Hin Hc) as Hr.
    destruct Hc as (i & Hi & Hv). apply nth_error_In in Hi.
    assert (Hs : exists w, dget String.eqb (match tb with Keyed _ => full_row ts k r | Listed _ => combine (tdf ts) r end) f = Some w).
    { destruct tb as [l|l]; cbn in *.
      - destruct W as (_ & _ & Hl). destruct Hin as [Hin _]. destruct (Hl _ _ Hin) as [L1 L2].
        rewrite full_row_get by auto. apply in_app_or in Hi as [Hi|Hi].
        + apply In_nth_error in Hi as [j Hj]. destruct (nth_error_ex k j) as [w Hw].
          { rewrite L1. eapply nth_error_Some_lt; eauto. }
          rewrite (dget_combine _ _ j f w); eauto. eapply NoDup_app_l; eauto.
        + destruct (dget String.eqb (combine (tpk ts) k) f); eauto.
          apply In_nth_error in Hi as [j Hj]. destruct (nth_error_ex r j) as [w Hw].
          { rewrite L2. eapply nth_error_Some_lt; eauto. }
          rewrite (dget_combine _ _ j f w); eauto. eapply NoDup_app_r; eauto.
      - destruct W as (Hpk & Hl). destruct Hin as [-> (j0 & Hj0 & ->)]. rewrite Hpk in Hi. cbn in Hi.
        apply nth_error_In in Hj0. specialize (Hl _ Hj0).
        apply In_nth_error in Hi as [j Hj]. destruct (nth_error_ex r j) as [w Hw].
        { rewrite Hl. eapply nth_error_Some_lt; eauto. }
        rewrite (dget_combine _ _ j f w); eauto. unfold wf_tschema, tfields in Wt. eapply NoDup_app_r; eauto. }
    destruct Hs as [w Hs]. unfold row_cell, dget_or in Hr. destruct tb; rewrite Hs in Hr; now subst.
Qed.

Lemma pred_rows_all ts tb rid k r : row_in tb rid k r -> exists rw, In (rid, rw) (pred_rows ts tb).
Proof.
  intros H. apply rows_of_In in H. unfold pred_rows. eexists. apply in_map_iff.
  exists (rid, k, r). split; [reflexivity|exact H].
Qed.
