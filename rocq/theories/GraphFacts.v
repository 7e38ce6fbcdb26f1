(** * Facts about foreign key graphs. *)
From Coq Require Import Bool List String Arith Lia Permutation Relations.
From Verif Require Import PyVal PyDict Data FindTypesFacts FK FKFacts WfCheck Graph.
Import ListNotations.
Local Open Scope list_scope.

(** ** Specification *)

(** Some foreign key points from table [t] to table [u]. *)
Definition edge (fks : list fk) (t u : string) : Prop :=
  exists f, In f fks /\ fk_native f = t /\ fk_foreign f = u.

Definition reaches (fks : list fk) : string -> string -> Prop := clos_refl_trans_1n _ (edge fks).

Definition acyclic (fks : list fk) : Prop := forall t u, edge fks t u -> ~ reaches fks u t.

(** [u] comes before [t]. *)
Definition before (l : list string) (u t : string) : Prop :=
  exists l1 l2, l = l1 ++ t :: l2 /\ In u l1.

(** The foreign tables are tables. *)
Definition fks_within (fks : list fk) (tables : list string) : Prop :=
  forall f, In f fks -> In (fk_foreign f) tables.

(** ** Basics *)

Lemma parents_In : forall fks t u, In u (parents fks t) <-> edge fks t u.
Proof.
  intros fks t u. unfold parents, edge. rewrite in_map_iff. split.
  - intros (f & E & H). apply filter_In in H as [H Hn]. apply String.eqb_eq in Hn. eauto.
  - intros (f & H & Hn & E). exists f. split; auto. apply filter_In. split; auto.
    now apply String.eqb_eq.
Qed.

Lemma mem_str_iff : forall x l, mem_str x l = true <-> In x l.
Proof.
  intros x l. unfold mem_str. rewrite existsb_exists. split.
  - intros (y & H & E). apply String.eqb_eq in E. now subst.
  - intros H. exists x. split; auto. apply String.eqb_refl.
Qed.

Lemma mem_str_false : forall x l, mem_str x l = false <-> ~ In x l.
Proof.
  intros x l. rewrite <- mem_str_iff. destruct (mem_str x l); split; intros H; auto; try discriminate.
  exfalso. now apply H.
Qed.

Lemma loop_opt_cons : forall {A B} (f : A -> B -> option B) x l b,
  loop_opt f (x :: l) b = match f x b with Some b' => loop_opt f l b' | None => None end.
Proof.
  intros A B f x l b. unfold loop_opt. simpl. destruct (f x b); auto.
  induction l; simpl; auto.
Qed.

(** Loop rule: an invariant over the processed prefix. *)
Lemma loop_opt_ind : forall {A B} (f : A -> B -> option B) (I : list A -> B -> Prop) l b b',
  I [] b -> (forall pre x c c', In x l -> I pre c -> f x c = Some c' -> I (pre ++ [x]) c') ->
  loop_opt f l b = Some b' -> I l b'.
Proof.
  intros A B f I l b b' H0 Hs E.
  assert (forall l2 l1 c, (forall x, In x l2 -> In x l) -> I l1 c -> loop_opt f l2 c = Some b' ->
            I (l1 ++ l2) b') as G.
  { induction l2 as [| x l2 IH]; intros l1 c Hin Hc Hl.
    - injection Hl as <-. now rewrite app_nil_r.
    - rewrite loop_opt_cons in Hl. destruct (f x c) as [c' |] eqn:Ef; [| discriminate].
      replace (l1 ++ x :: l2) with ((l1 ++ [x]) ++ l2) by now rewrite <- app_assoc.
      apply IH with c'; auto.
      + intros y Hy. apply Hin. now right.
      + apply Hs with c; auto. apply Hin. now left. }
  apply (G l [] b); auto.
Qed.

(** Termination rule. *)
Lemma loop_opt_total : forall {A B} (f : A -> B -> option B) (I : B -> Prop) l b,
  I b -> (forall x c, In x l -> I c -> exists c', f x c = Some c' /\ I c') ->
  exists b', loop_opt f l b = Some b' /\ I b'.
Proof.
  intros A B f I. induction l as [| x l IH]; intros b Hb Hs.
  - exists b. auto.
  - rewrite loop_opt_cons. destruct (Hs x b (or_introl eq_refl) Hb) as (c & -> & Hc).
    apply IH; auto. intros y d Hy. apply Hs. now right.
Qed.

Lemma reaches_refl : forall fks t, reaches fks t t.
Proof. intros. constructor. Qed.

Lemma reaches_cons : forall fks t u v, edge fks t u -> reaches fks u v -> reaches fks t v.
Proof. intros fks t u v H1 H2. exact (Relation_Operators.rt1n_trans _ _ _ _ _ H1 H2). Qed.

Lemma reaches_step : forall fks t u v, reaches fks t u -> edge fks u v -> reaches fks t v.
Proof.
  intros fks t u v H E. induction H as [t | t w u H1 H2 IH].
  - apply reaches_cons with v; auto. apply reaches_refl.
  - eapply reaches_cons; eauto.
Qed.

Lemma reaches_trans : forall fks t u v, reaches fks t u -> reaches fks u v -> reaches fks t v.
Proof.
  intros fks t u v H E. induction H as [t | t w u H1 H2 IH]; auto.
  eapply reaches_cons; eauto.
Qed.

Lemma NoDup_short : forall (l tables : list string), NoDup l -> incl l tables ->
  List.length l <= List.length tables.
Proof. intros. now apply NoDup_incl_length. Qed.

Lemma NoDup_snoc : forall (l : list string) x, NoDup l -> ~ In x l -> NoDup (l ++ [x]).
Proof.
  intros l x H Hx. rewrite <- (rev_involutive (l ++ [x])). apply NoDup_rev. rewrite rev_app_distr.
  simpl. constructor; [now rewrite <- in_rev | now apply NoDup_rev].
Qed.

(** ** Circle detection *)

(** Simple paths; the list holds the vertices except the last. *)
Inductive spath (fks : list fk) : string -> list string -> string -> Prop :=
| sp_nil : forall t, spath fks t [] t
| sp_cons : forall t t' l u, edge fks t t' -> ~ In t l -> t <> u -> spath fks t' l u ->
    spath fks t (t :: l) u.

Lemma spath_suffix : forall fks t l u x, spath fks t l u -> In x l ->
  exists l', spath fks x l' u /\ incl l' l.
Proof.
  intros fks t l u x H. induction H as [t | t t' l u He Hn Hne Hp IH]; intros Hx; [destruct Hx |].
  destruct Hx as [-> | Hx].
  - exists (x :: l). split; [now apply sp_cons with t' |]. intros y Hy. auto.
  - destruct (IH Hx) as (l' & H1 & H2). exists l'. split; auto. intros y Hy. right. auto.
Qed.

Lemma reaches_spath : forall fks t u, reaches fks t u -> exists l, spath fks t l u.
Proof.
  intros fks t u H. induction H as [t | t w u H1 H2 (l & IH)].
  - exists []. constructor.
  - destruct (string_dec t u) as [-> | Hne]; [exists []; constructor |].
    destruct (in_dec string_dec t l) as [Hin | Hn].
    + destruct (spath_suffix _ _ _ _ _ IH Hin) as (l' & H & _). eauto.
    + exists (t :: l). now apply sp_cons with w.
Qed.

Lemma circle_sound : forall n fks native seen t,
  circle_from n fks native seen t = Some true -> reaches fks t native.
Proof.
  induction n as [| n IH]; intros fks native seen t H; [discriminate |]. cbn [circle_from] in H.
  destruct (String.eqb t native) eqn:E; [apply String.eqb_eq in E as ->; constructor |].
  destruct (mem_str t seen); [discriminate |].
  apply (loop_opt_ind _ (fun _ b => b = true -> reaches fks t native)) in H; auto.
  - discriminate.
  - intros pre u c c' Hu Hc Hf Hc'. subst c'.
    destruct (circle_from n fks native (seen ++ [t]) u) as [b |] eqn:Eb; [| discriminate].
    simpl in Hf. injection Hf as Hf. destruct c; [auto |]. simpl in Hf. subst b.
    apply IH in Eb. apply parents_In in Hu. eapply reaches_cons; eauto.
Qed.

Lemma circle_complete : forall fks native t l, spath fks t l native ->
  forall n seen b, (forall x, In x l -> ~ In x seen) ->
    circle_from n fks native seen t = Some b -> b = true.
Proof.
  intros fks native t l H.
  induction H as [t | t t' l u He Hn Hne Hp IH]; intros n seen b Hs Hc;
    (destruct n as [| n]; [discriminate |]); cbn [circle_from] in Hc.
  - rewrite String.eqb_refl in Hc. now injection Hc as <-.
  - apply String.eqb_neq in Hne. rewrite Hne in Hc.
    assert (mem_str t seen = false) as Hm by (apply mem_str_false; apply Hs; now left).
    rewrite Hm in Hc.
    apply (loop_opt_ind _ (fun pre b => In t' pre -> b = true)) in Hc.
    + exact Hc.
    + intros [].
    + intros pre x c c' Hx Hpre Hf Hin.
      destruct (circle_from n fks u (seen ++ [t]) x) as [b' |] eqn:Eb; [| discriminate].
      simpl in Hf. injection Hf as <-. apply in_app_iff in Hin as [Hin | [-> | []]].
      * rewrite (Hpre Hin). reflexivity.
      * apply orb_true_iff. right. apply (IH n (seen ++ [t]) b'); auto.
        intros y Hy Hc'. apply in_app_iff in Hc' as [Hc' | [-> | []]]; [| contradiction].
        apply (Hs y); auto. now right.
    + now apply parents_In.
Qed.

Lemma circle_total : forall n fks native tables seen t,
  fks_within fks tables -> NoDup seen -> incl seen tables -> In t tables ->
  List.length tables < List.length seen + n ->
  exists b, circle_from n fks native seen t = Some b.
Proof.
  induction n as [| n IH]; intros fks native tables seen t Hw Hnd Hi Ht Hn.
  - apply (NoDup_short _ _ Hnd) in Hi. lia.
  - cbn [circle_from]. destruct (String.eqb t native); [eauto |].
    destruct (mem_str t seen) eqn:Em; [eauto |]. apply mem_str_false in Em.
    destruct (loop_opt_total (fun u hit => option_map (orb hit) (circle_from n fks native (seen ++ [t]) u))
                (fun _ => True) (parents fks t) false I) as (b & -> & _); [| eauto].
    intros u c Hu _.
    destruct (IH fks native tables (seen ++ [t]) u) as (b & ->); auto.
    + apply NoDup_snoc; auto.
    + intros x Hx. apply in_app_iff in Hx as [Hx | [<- | []]]; auto.
    + apply parents_In in Hu as (f & Hf & _ & <-). auto.
    + rewrite app_length. simpl. lia.
    + simpl. eauto.
Qed.

Theorem circle_exact : forall fks tables native foreign n,
  fks_within fks tables -> In foreign tables -> List.length tables < n ->
  exists b, completes_circle n fks native foreign = Some b /\
    (b = true <-> reaches fks foreign native).
Proof.
  intros fks tables native foreign n Hw Hf Hn.
  destruct (circle_total n fks native tables [] foreign) as (b & Hb); auto.
  - constructor.
  - intros x [].
  - exists b. split; auto. split.
    + intros ->. eapply circle_sound; eauto.
    + intros H. apply reaches_spath in H as (l & H). apply (circle_complete _ _ _ _ H n [] b); auto.
Qed.

(** ** Orders *)

(** [l] is ordered as far as [fks] allows, cycles excepted. *)
Definition ordered (fks : list fk) (l : list string) : Prop :=
  forall t u, In t l -> edge fks t u -> before l u t \/ reaches fks u t.

Lemma before_app : forall l l' u t, before l u t -> before (l ++ l') u t.
Proof.
  intros l l' u t (l1 & l2 & -> & H). exists l1, (l2 ++ l'). split; auto.
  now rewrite <- app_assoc.
Qed.

Lemma pg_process_spec : forall n fks seen t rtn rtn',
  pg_process n fks seen t rtn = Some rtn' ->
  NoDup rtn -> ordered fks rtn -> (forall x, In x seen -> reaches fks x t) ->
  NoDup rtn' /\ ordered fks rtn' /\ (exists more, rtn' = rtn ++ more) /\
  (In t rtn' \/ In t seen) /\
  (forall x, In x rtn' -> In x rtn \/ (~ In x seen /\ reaches fks t x)).
Proof.
  induction n as [| n IH]; intros fks seen t rtn rtn' H Hnd Ho Hs; [discriminate |].
  cbn [pg_process] in H.
  destruct (mem_str t (rtn ++ seen)) eqn:Em.
  - injection H as <-. apply mem_str_iff in Em. apply in_app_iff in Em.
    split; [assumption |]. split; [assumption |]. split; [exists []; now rewrite app_nil_r |]. split; auto.
  - apply mem_str_false in Em. rewrite in_app_iff in Em.
    destruct (loop_opt _ (parents fks t) rtn) as [r |] eqn:El; [| discriminate].
    simpl in H. injection H as <-.
    apply (loop_opt_ind _ (fun pre r =>
        NoDup r /\ ordered fks r /\ (exists more, r = rtn ++ more) /\
        (forall u, In u pre -> In u r \/ In u (seen ++ [t])) /\
        (forall x, In x r -> In x rtn \/ (~ In x (seen ++ [t]) /\ reaches fks t x)))) in El.
    + destruct El as (H1 & H2 & (more & ->) & H4 & H5).
      assert (~ In t (rtn ++ more)) as Hnt.
      { intros Hc. destruct (H5 t Hc) as [Hc' | [Hc' _]]; [tauto |]. apply Hc'. apply in_app_iff. simpl. auto. }
      split; [now apply NoDup_snoc |]. split; [| split; [| split]].
      * intros x u Hx He. apply in_app_iff in Hx as [Hx | [<- | []]].
        -- destruct (H2 x u Hx He); auto. left. now apply before_app.
        -- destruct (H4 u) as [Hu | Hu]; [now apply parents_In | |].
           ++ left. exists (rtn ++ more), []. auto.
           ++ right. apply in_app_iff in Hu as [Hu | [<- | []]]; auto. constructor.
      * exists (more ++ [t]). now rewrite app_assoc.
      * left. apply in_app_iff. simpl. auto.
      * intros x Hx. apply in_app_iff in Hx as [Hx | [<- | []]].
        -- destruct (H5 x Hx) as [Hx' | [Hx' Hr]]; auto. right. split; auto.
           intros Hc. apply Hx'. apply in_app_iff. auto.
        -- right. split; [tauto | constructor].
    + split; [assumption |]. split; [assumption |]. split; [exists []; now rewrite app_nil_r |].
      split; [intros u [] |]. auto.
    + intros pre u c c' Hu (H1 & H2 & (more & ->) & H4 & H5) Hf.
      apply parents_In in Hu.
      apply IH in Hf; auto.
      * destruct Hf as (G1 & G2 & (more' & ->) & G4 & G5).
        split; [assumption |]. split; [assumption |].
        split; [exists (more ++ more'); now rewrite app_assoc |]. split.
        -- intros v Hv. apply in_app_iff in Hv as [Hv | [-> | []]]; auto.
           destruct (H4 v Hv); auto. left. apply in_app_iff. auto.
        -- intros x Hx. destruct (G5 x Hx) as [Hx' | [Hx' Hr]]; auto.
           right. split; auto. eapply reaches_cons; eauto.
      * intros x Hx. apply in_app_iff in Hx as [Hx | [<- | []]].
        -- eapply reaches_step; eauto.
        -- eapply reaches_step; eauto. constructor.
Qed.

Lemma pg_process_total : forall n fks tables seen t rtn,
  fks_within fks tables -> NoDup seen -> incl seen tables -> In t tables ->
  List.length tables < List.length seen + n ->
  exists rtn', pg_process n fks seen t rtn = Some rtn'.
Proof.
  induction n as [| n IH]; intros fks tables seen t rtn Hw Hnd Hi Ht Hn.
  - apply (NoDup_short _ _ Hnd) in Hi. lia.
  - cbn [pg_process]. destruct (mem_str t (rtn ++ seen)) eqn:Em; [eauto |].
    apply mem_str_false in Em. rewrite in_app_iff in Em.
    destruct (loop_opt_total (fun u r => pg_process n fks (seen ++ [t]) u r)
                (fun _ => True) (parents fks t) rtn I) as (b & -> & _); [| simpl; eauto].
    intros u c Hu _.
    destruct (IH fks tables (seen ++ [t]) u c) as (b & ->); eauto.
    + apply NoDup_snoc; auto.
    + intros x Hx. apply in_app_iff in Hx as [Hx | [<- | []]]; auto.
    + apply parents_In in Hu as (f & Hf & _ & <-). auto.
    + rewrite app_length. simpl. lia.
Qed.

Lemma reaches_within : forall fks tables t x, fks_within fks tables -> In t tables ->
  reaches fks t x -> In x tables.
Proof.
  intros fks tables t x Hw Ht H. induction H as [| t w x (f & Hf & _ & <-) H IH]; auto.
Qed.

Theorem pg_order_correct : forall fks tables n,
  NoDup tables -> fks_within fks tables -> List.length tables < n ->
  exists rtn, pg_order n fks tables = Some rtn /\ Permutation rtn tables /\
    forall t u, In t tables -> edge fks t u -> ~ reaches fks u t -> before rtn u t.
Proof.
  intros fks tables n Hnd Hw Hn.
  destruct (loop_opt_total (fun t r => pg_process n fks [] t r) (fun _ => True) tables [] I)
    as (rtn & E & _).
  { intros t c Ht _. destruct (pg_process_total n fks tables [] t c) as (r & Hr); eauto.
    - constructor.
    - intros x []. }
  exists rtn. split; [exact E |].
  apply (loop_opt_ind _ (fun pre r => NoDup r /\ ordered fks r /\ incl pre r /\ incl r tables)) in E.
  - destruct E as (H1 & H2 & H3 & H4). split.
    + apply NoDup_Permutation; auto. intros x. split; auto.
    + intros t u Ht He Hr. destruct (H2 t u (H3 t Ht) He); tauto.
  - split; [constructor |]. split; [intros t u [] |]. split; intros x [].
  - intros pre t c c' Ht (H1 & H2 & H3 & H4) Hf.
    apply pg_process_spec in Hf; auto; [| intros x []].
    destruct Hf as (G1 & G2 & (more & ->) & G4 & G5). split; auto. split; auto. split.
    + intros x Hx. apply in_app_iff in Hx as [Hx | [<- | []]]; [apply in_app_iff; auto |].
      destruct G4 as [G4 | []]; auto.
    + intros x Hx. destruct (G5 x Hx) as [Hx' | [_ Hx']]; auto. eapply reaches_within; eauto.
Qed.

(** ** SQLite *)

Definition strictly_ordered (fks : list fk) (l : list string) : Prop :=
  forall t u, In t l -> edge fks t u -> before l u t.

Lemma sq_process_spec : forall n fks t rtn rtn',
  sq_process n fks t rtn = Some rtn' ->
  strictly_ordered fks rtn ->
  strictly_ordered fks rtn' /\ (exists more, rtn' = rtn ++ more) /\ In t rtn' /\
  (forall x, In x rtn' -> In x rtn \/ reaches fks t x).
Proof.
  induction n as [| n IH]; intros fks t rtn rtn' H Ho; [discriminate |].
  cbn [sq_process] in H.
  destruct (mem_str t rtn) eqn:Em.
  - injection H as <-. apply mem_str_iff in Em. split; auto.
    split; [exists []; now rewrite app_nil_r |]. auto.
  - destruct (loop_opt _ (parents fks t) rtn) as [r |] eqn:El; [| discriminate].
    simpl in H. injection H as <-.
    apply (loop_opt_ind _ (fun pre r =>
        strictly_ordered fks r /\ (exists more, r = rtn ++ more) /\ incl pre r /\
        (forall x, In x r -> In x rtn \/ reaches fks t x))) in El.
    + destruct El as (H1 & (more & ->) & H3 & H4). split; [| split; [| split]].
      * intros x u Hx He. apply in_app_iff in Hx as [Hx | [<- | []]].
        -- apply before_app. auto.
        -- exists (rtn ++ more), []. split; auto. apply H3. now apply parents_In.
      * exists (more ++ [t]). now rewrite app_assoc.
      * apply in_app_iff. simpl. auto.
      * intros x Hx. apply in_app_iff in Hx as [Hx | [<- | []]]; auto. right. constructor.
    + split; [assumption |]. split; [exists []; now rewrite app_nil_r |]. split; [intros u [] | auto].
    + intros pre u c c' Hu (H1 & (more & ->) & H3 & H4) Hf. apply parents_In in Hu.
      apply IH in Hf; auto. destruct Hf as (G1 & (more' & ->) & G3 & G4). split; auto.
      split; [exists (more ++ more'); now rewrite app_assoc |]. split.
      * intros x Hx. apply in_app_iff in Hx as [Hx | [<- | []]]; auto. apply in_app_iff. auto.
      * intros x Hx. destruct (G4 x Hx); auto. right. eapply reaches_cons; eauto.
Qed.

Lemma sq_process_nodup : forall n fks t rtn rtn', acyclic fks ->
  sq_process n fks t rtn = Some rtn' -> strictly_ordered fks rtn -> NoDup rtn -> NoDup rtn'.
Proof.
  induction n as [| n IH]; intros fks t rtn rtn' Ha H Ho Hnd; [discriminate |].
  cbn [sq_process] in H.
  destruct (mem_str t rtn) eqn:Em; [now injection H as <- |].
  destruct (loop_opt _ (parents fks t) rtn) as [r |] eqn:El; [| discriminate].
  simpl in H. injection H as <-.
  apply (loop_opt_ind _ (fun _ r => strictly_ordered fks r /\ NoDup r /\ ~ In t r)) in El.
  - destruct El as (_ & H1 & H2). now apply NoDup_snoc.
  - apply mem_str_false in Em. auto.
  - intros pre u c c' Hu (H1 & H2 & H3) Hf. apply parents_In in Hu.
    pose proof (IH fks u c c' Ha Hf H1 H2) as Hnd'.
    apply sq_process_spec in Hf; auto. destruct Hf as (G1 & _ & _ & G4). split; auto. split; auto.
    intros Hc. destruct (G4 t Hc) as [Hc' | Hc']; [auto |]. exact (Ha t u Hu Hc').
Qed.

Lemma sq_process_total : forall n fks tables stack t rtn, acyclic fks ->
  fks_within fks tables -> NoDup stack -> incl stack tables -> In t tables ->
  (forall x, In x stack -> exists y, edge fks x y /\ reaches fks y t) ->
  List.length tables < List.length stack + n ->
  exists rtn', sq_process n fks t rtn = Some rtn'.
Proof.
  induction n as [| n IH]; intros fks tables stack t rtn Ha Hw Hnd Hi Ht Hs Hn.
  - apply (NoDup_short _ _ Hnd) in Hi. lia.
  - cbn [sq_process]. destruct (mem_str t rtn) eqn:Em; [eauto |].
    assert (~ In t stack) as Hnt.
    { intros Hc. destruct (Hs t Hc) as (y & Hy & Hr). exact (Ha t y Hy Hr). }
    destruct (loop_opt_total (fun u r => sq_process n fks u r)
                (fun _ => True) (parents fks t) rtn I) as (b & -> & _); [| simpl; eauto].
    intros u c Hu _. apply parents_In in Hu.
    destruct (IH fks tables (stack ++ [t]) u c) as (b & ->); eauto.
    + apply NoDup_snoc; auto.
    + intros x Hx. apply in_app_iff in Hx as [Hx | [<- | []]]; auto.
    + destruct Hu as (f & Hf & _ & <-). auto.
    + intros x Hx. apply in_app_iff in Hx as [Hx | [<- | []]].
      * destruct (Hs x Hx) as (y & Hy & Hr). exists y. split; auto. eapply reaches_step; eauto.
      * exists u. split; auto. constructor.
    + rewrite app_length. simpl. lia.
Qed.

Theorem sq_order_acyclic : forall fks tables n, acyclic fks ->
  NoDup tables -> fks_within fks tables -> List.length tables < n ->
  exists rtn, sq_order n fks tables = Some rtn /\ Permutation rtn tables /\
    forall t u, In t tables -> edge fks t u -> before rtn u t.
Proof.
  intros fks tables n Ha Hnd Hw Hn.
  destruct (loop_opt_total (fun t r => sq_process n fks t r) (fun _ => True) tables [] I)
    as (rtn & E & _).
  { intros t c Ht _. destruct (sq_process_total n fks tables [] t c) as (r & Hr); eauto.
    - constructor.
    - intros x [].
    - intros x []. }
  exists rtn. split; [exact E |].
  apply (loop_opt_ind _ (fun pre r => NoDup r /\ strictly_ordered fks r /\ incl pre r /\ incl r tables)) in E.
  - destruct E as (H1 & H2 & H3 & H4). split.
    + apply NoDup_Permutation; auto. intros x. split; auto.
    + intros t u Ht He. exact (H2 t u (H3 t Ht) He).
  - split; [constructor |]. split; [intros t u [] |]. split; intros x [].
  - intros pre t c c' Ht (H1 & H2 & H3 & H4) Hf.
    pose proof (sq_process_nodup _ _ _ _ _ Ha Hf H2 H1) as Hnd'.
    apply sq_process_spec in Hf; auto.
    destruct Hf as (G1 & (more & ->) & G3 & G4). split; auto. split; auto. split.
    + intros x Hx. apply in_app_iff in Hx as [Hx | [<- | []]]; auto. apply in_app_iff; auto.
    + intros x Hx. destruct (G4 x Hx) as [Hx' | Hx']; auto. eapply reaches_within; eauto.
Qed.

(** Ordered in the strong sense used by the traversal: every element's parents
    occur before its last listed occurrence; by induction on prefixes. *)
Definition built (fks : list fk) (l : list string) : Prop :=
  forall l1 t l2, l = l1 ++ t :: l2 -> forall u, edge fks t u -> In u l1.

Lemma sq_process_built : forall n fks t rtn rtn',
  sq_process n fks t rtn = Some rtn' -> built fks rtn -> built fks rtn' /\ In t rtn' /\ incl rtn rtn'.
Proof.
  induction n as [| n IH]; intros fks t rtn rtn' H Hb; [discriminate |]. cbn [sq_process] in H.
  destruct (mem_str t rtn) eqn:Em.
  - injection H as <-. apply mem_str_iff in Em. split; auto. split; auto. intros x; auto.
  - destruct (loop_opt _ (parents fks t) rtn) as [r |] eqn:El; [| discriminate].
    simpl in H. injection H as <-.
    apply (loop_opt_ind _ (fun pre r => built fks r /\ incl pre r /\ incl rtn r)) in El.
    + destruct El as (H1 & H2 & H3). split; [| split].
      * intros l1 x l2 E u He.
        destruct (exists_last (l := x :: l2)) as (l3 & y & E3); [discriminate |].
        rewrite E3, app_assoc in E. apply app_inj_tail in E as [E Ey]. subst y.
        destruct l3 as [| z l3].
        -- injection E3 as <- _. rewrite app_nil_r in E. subst l1. apply H2. now apply parents_In.
        -- injection E3 as <- E4. apply (H1 l1 x l3 E u He).
      * apply in_app_iff. simpl. auto.
      * intros x Hx. apply in_app_iff. auto.
    + split; auto. split; intros x; [intros [] | auto].
    + intros pre u c c' Hu (H1 & H2 & H3) Hf. apply IH in Hf; auto. destruct Hf as (G1 & G2 & G3).
      split; auto. split; intros x Hx; auto. apply in_app_iff in Hx as [Hx | [<- | []]]; auto.
Qed.

(** In a built list whatever is reachable from a prefix element lies in the
    prefix, so a table reaching itself would precede itself. *)
Lemma built_acyclic_from : forall fks l, built fks l ->
  forall l1 t l2, l = l1 ++ t :: l2 -> ~ In t l1 -> forall u, edge fks t u -> ~ reaches fks u t.
Proof.
  intros fks l Hb l1 t l2 E Hn u He Hr.
  assert (In u l1) as Hu by exact (Hb l1 t l2 E u He).
  assert (forall x, In x l1 -> forall y, edge fks x y -> In y l1) as Hc.
  { intros x Hx y Hy. apply in_split in Hx as (m1 & m2 & Em). subst l1.
    assert (In y m1) as Hym.
    { apply (Hb m1 x (m2 ++ t :: l2)) with (u := y); auto. rewrite E, <- app_assoc. reflexivity. }
    apply in_app_iff. auto. }
  assert (In t l1) as Ht; [| contradiction].
  clear He Hn E. induction Hr as [| u w t H1 H2 IH]; auto. apply IH; eauto.
Qed.

Theorem sq_order_cyclic : forall fks tables,
  (forall f, In f fks -> In (fk_native f) tables) -> ~ acyclic fks ->
  forall n, sq_order n fks tables = None.
Proof.
  intros fks tables Hw Hc n. destruct (sq_order n fks tables) as [rtn |] eqn:E; auto. exfalso.
  apply Hc. intros t u He Hr.
  apply (loop_opt_ind _ (fun pre r => built fks r /\ incl pre r)) in E.
  - destruct E as (Hb & Hi).
    assert (In t rtn) as Ht by (apply Hi; destruct He as (f & Hf & <- & _); auto).
    (* the first occurrence of t *)
    assert (exists l1 l2, rtn = l1 ++ t :: l2 /\ ~ In t l1) as (l1 & l2 & E & Hn).
    { clear -Ht. induction rtn as [| x l IH]; [destruct Ht |].
      destruct (string_dec x t) as [-> | Hne]; [exists [], l; auto |].
      destruct Ht as [-> | Ht]; [contradiction |]. destruct (IH Ht) as (l1 & l2 & -> & Hn).
      exists (x :: l1), l2. split; auto. intros [-> | H]; auto. }
    exact (built_acyclic_from fks rtn Hb l1 t l2 E Hn u He Hr).
  - split; [intros l1 t' l2 E'; destruct l1; discriminate | intros x []].
  - intros pre x c c' Hx (H1 & H2) Hf. apply sq_process_built in Hf as (G1 & G2 & G3); auto.
    split; auto. intros y Hy. apply in_app_iff in Hy as [Hy | [<- | []]]; auto.
Qed.

(** A self reference, as in a table of employees and their managers. *)
Lemma sq_self_reference : exists sch f,
  wf_schema sch /\ wf_fk sch f /\ forall n, sq_order n [f] (map fst sch) = None.
Proof.
  exists [("employee", mkT ["id"] ["manager"])]%string,
    (mkFk "employee" "employee" [("manager", "id")])%string.
  split; [now apply wf_schema_ok |]. split; [now apply wf_fk_ok |].
  apply sq_order_cyclic.
  - intros f [<- | []]. simpl. auto.
  - intros H. apply (H "employee" "employee")%string.
    + eexists. split; [now left |]. auto.
    + apply reaches_refl.
Qed.
