(** * Facts about the PanDat constructor. *)
From Coq Require Import ZArith Bool List String Arith Lia.
From Verif Require Import PyVal PyValFacts PyDict PyDictFacts ListFacts Data FindTypes FindTypesFacts FK Obj ObjFacts ObjMore
  Factory FactoryFacts GraphFacts InfIO Json ObjRows TripFacts Csv CsvTrip Frames FramesFacts.
Import ListNotations.
Local Open Scope string_scope.
Local Open Scope list_scope.

(** Row [r] has [v] in the column [c]. *)
Definition in_col (fr : frame) (r : list value * list value) (c : colname) (v : value) : Prop :=
  exists i, nth_error (fr_cols fr) i = Some c /\ nth_error (snd r) i = Some v.

(** The index holds the key fields, which are no columns. *)
Definition indexed (ts : tschema) (fr : frame) : Prop :=
  tpk ts <> [] /\ (forall p, In p (tpk ts) -> ~ In (CName p) (fr_cols fr)) /\ (forall c, In c (fr_index fr) <-> In c (map CName (tpk ts))).

(** What the row [r] of the argument has for [c]. *)
Definition source (ts : tschema) (fr : frame) (r : list value * list value) (c : colname) (v : value) : Prop :=
  in_col fr r c v \/ (indexed ts fr /\ exists i, nth_error (fr_index fr) i = Some c /\ nth_error (fst r) i = Some v).

Definition known (ts : tschema) (fr : frame) (c : colname) : Prop :=
  In c (fr_cols fr) \/ (indexed ts fr /\ In c (fr_index fr)).

Lemma in_col_known : forall fr r c v, in_col fr r c v -> In c (fr_cols fr).
Proof. intros fr r c v (i & A & _). eapply nth_error_In; eauto. Qed.

Lemma in_col_total : forall fr r c, rect fr -> In r (fr_rows fr) -> In c (fr_cols fr) -> exists v, in_col fr r c v.
Proof.
  intros fr r c [_ R] Hr Hc. destruct (R _ Hr) as [_ L]. apply In_nth_error in Hc as [i Hi].
  destruct (nth_error (snd r) i) as [v |] eqn:E; [exists v, i; auto |]. apply nth_error_None in E. rewrite L in E. apply nth_error_None in E. congruence.
Qed.

Lemma in_col_fun : forall fr r c v w, rect fr -> in_col fr r c v -> in_col fr r c w -> v = w.
Proof.
  intros fr r c v w [N _] (i & A & B) (j & C & D). assert (i = j) as <-; [| congruence].
  apply (proj1 (NoDup_nth_error (fr_cols fr)) N); [| congruence]. apply nth_error_Some. congruence.
Qed.

(** ** The steps *)

Lemma indexed_test : forall ts fr, (match tpk ts with [] => false | _ =>
      negb (existsb (has_col fr) (tpk ts)) &&
      forallb (fun p => existsb (col_eqb (CName p)) (fr_index fr)) (tpk ts) &&
      forallb (fun c => existsb (col_eqb c) (map CName (tpk ts))) (fr_index fr) end) = true <-> indexed ts fr.
Proof.
  intros ts fr. unfold indexed. destruct (tpk ts) as [| p pk] eqn:Ep; [split; [discriminate | now intros [H _]] |]. rewrite <- Ep.
  rewrite !andb_true_iff, negb_true_iff, !forallb_forall. split.
  - intros [[A B] C]. split; [congruence |]. split.
    + intros q Hq Hc. apply not_true_iff_false in A. apply A. apply existsb_exists. exists q. split; auto. now apply has_col_iff.
    + intros c. split; intros H; [apply col_in; auto |]. apply in_map_iff in H as (q & <- & Hq). apply col_in. auto.
  - intros (_ & A & B). split; [split |].
    + apply not_true_is_false. intros H. apply existsb_exists in H as (q & Hq & Hc). apply has_col_iff in Hc. eapply A; eauto.
    + intros q Hq. apply col_in. apply B. now apply in_map.
    + intros c Hc. apply col_in. now apply B.
Qed.

Lemma unindex_spec : forall ts fr, rect fr -> NoDup (fr_index fr) -> exists fr1, unindex ts fr = Some fr1 /\ rect fr1 /\
  (forall c, In c (fr_cols fr1) <-> known ts fr c) /\
  Forall2 (fun r r1 => forall c v, in_col fr1 r1 c v <-> source ts fr r c v) (fr_rows fr) (fr_rows fr1) /\
  (indexed ts fr -> fr_index fr1 = []) /\ (~ indexed ts fr -> fr1 = fr).
Proof.
  intros ts fr R Ni. pose proof (indexed_test ts fr) as T. unfold unindex.
  assert (forall x : option frame, match tpk ts with [] => Some fr | _ :: _ => x end = match tpk ts with [] => Some fr | _ => x end) as _ by auto.
  assert (indexed ts fr \/ ~ indexed ts fr) as [Hi | Hi].
  { destruct (match tpk ts with [] => false | _ => _ end); [left | right]; [now apply T | intros H; apply T in H; discriminate]. }
  - assert (exists fr', reset_index fr = Some fr') as [fr' E].
    { unfold reset_index. destruct (existsb _ (fr_index fr)) eqn:X; eauto. exfalso. apply existsb_exists in X as (c & A & B). apply col_in in B.
      destruct Hi as (_ & A1 & A2). apply A2 in A. apply in_map_iff in A as (q & <- & A). eapply A1; eauto. }
    exists fr'. split.
    { pose proof (proj2 T Hi) as Tt. destruct (tpk ts); [discriminate |]. now rewrite Tt. }
    destruct (reset_reads fr fr' R E Ni) as (R' & C1 & I1 & _). split; auto. split; [| split; [| split; [auto | tauto]]].
    + intros c. rewrite C1. unfold known. rewrite in_app_iff. tauto.
    + unfold reset_index in E. destruct (existsb _ (fr_index fr)) eqn:X; [discriminate |]. injection E as <-. simpl in *. destruct R as [N Rr].
      assert (forall l, (forall r, In r l -> In r (fr_rows fr)) -> Forall2 (fun r r1 => forall c v, in_col (mkFr [] (fr_index fr ++ fr_cols fr) (map (fun r => ([], fst r ++ snd r)) (fr_rows fr))) r1 c v <-> source ts fr r c v)
               l (map (fun r => ([], fst r ++ snd r)) l)) as G; [| apply G; auto].
      induction l as [| r l IH]; intros Hs; constructor; [| apply IH; intros; apply Hs; simpl; auto].
      destruct (Rr r) as [L1 L2]; [apply Hs; simpl; auto |]. intros c v. unfold source, in_col. cbn [fr_cols snd fst]. split.
      * intros (i & A & B). destruct (Nat.lt_ge_cases i (List.length (fr_index fr))) as [Hl | Hl].
        -- rewrite nth_error_app1 in A by auto. rewrite nth_error_app1 in B by lia. right. split; eauto.
        -- rewrite nth_error_app2 in A by auto. rewrite nth_error_app2 in B by lia. rewrite L1 in B. left. eauto.
      * intros [(i & A & B) | (_ & i & A & B)].
        -- exists (List.length (fr_index fr) + i). rewrite nth_error_app2 by lia. rewrite <- L1 at 2. rewrite nth_error_app2 by lia.
           rewrite <- L1. replace (List.length (fst r) + i - List.length (fst r)) with i by lia. auto.
        -- exists i. rewrite !nth_error_app1; auto; apply nth_error_Some; congruence.
  - exists fr. split.
    { destruct (tpk ts) as [| p pk]; auto. destruct (negb _ && _ && _); auto. exfalso. apply Hi. now apply T. }
    split; auto. split; [intros c; unfold known; tauto |]. split; [| split; [tauto | auto]].
    induction (fr_rows fr); constructor; auto. intros c v. unfold source. tauto.
Qed.

(** The default that a column not there gets: the first of its name. *)
Definition filled (dv : list (string * value)) (fr : frame) (c : colname) (v : value) : Prop :=
  ~ In c (fr_cols fr) /\ exists f, c = CName f /\ dget String.eqb dv f = Some v.

Lemma add_col_spec : forall fr f d, rect fr -> ~ In (CName f) (fr_cols fr) -> rect (add_col fr f d) /\
  Forall2 (fun r r1 => fst r1 = fst r /\ forall c v, in_col (add_col fr f d) r1 c v <-> in_col fr r c v \/ (c = CName f /\ v = d)) (fr_rows fr) (fr_rows (add_col fr f d)).
Proof.
  intros fr f d [N R] Hf. split.
  - split; simpl.
    + apply NoDup_app_intro; auto; [constructor; [intros [] | constructor] |]. intros x H [<- | []]. auto.
    + intros r Hr. apply in_map_iff in Hr as (r0 & <- & Hr). simpl. rewrite !app_length. destruct (R _ Hr) as [-> ->]. auto.
  - cbn [add_col fr_rows]. assert (forall l, (forall r, In r l -> In r (fr_rows fr)) -> Forall2 (fun r r1 => fst r1 = fst r /\ forall c v, in_col (add_col fr f d) r1 c v <-> in_col fr r c v \/ (c = CName f /\ v = d))
      l (map (fun r => (fst r, snd r ++ [d])) l)) as G; [| apply G; auto].
    induction l as [| r l IH]; intros Hs; constructor; [| apply IH; intros; apply Hs; simpl; auto]. split; auto.
    destruct (R r) as [_ L]; [apply Hs; simpl; auto |]. intros c v. unfold in_col. cbn [add_col fr_cols snd]. split.
    + intros (i & A & B). destruct (Nat.lt_ge_cases i (List.length (fr_cols fr))) as [Hl | Hl].
      * rewrite nth_error_app1 in A by auto. rewrite nth_error_app1 in B by lia. left. eauto.
      * rewrite nth_error_app2 in A by auto. rewrite nth_error_app2 in B by lia. rewrite L in B. destruct (i - List.length (fr_cols fr)) as [| [| k]]; simpl in A, B; try discriminate.
        right. split; congruence.
    + intros [(i & A & B) | [-> ->]].
      * exists i. rewrite !nth_error_app1; auto; apply nth_error_Some; congruence.
      * exists (List.length (fr_cols fr)). split; [rewrite nth_error_app2 by lia | rewrite nth_error_app2 by lia; rewrite L]; now rewrite Nat.sub_diag.
Qed.

Lemma Forall2_refl_in {A} (P : A -> A -> Prop) : forall l, (forall x, In x l -> P x x) -> Forall2 P l l.
Proof. induction l; intros H; constructor; simpl in *; auto. Qed.

Lemma Forall2_trans {A B C} (P : A -> B -> Prop) (Q : B -> C -> Prop) (S : A -> C -> Prop) : forall l m n,
  (forall a b c, P a b -> Q b c -> S a c) -> Forall2 P l m -> Forall2 Q m n -> Forall2 S l n.
Proof.
  intros l m n H F. revert n. induction F; intros n G; inversion G; subst; constructor; eauto.
Qed.

Lemma fill_spec : forall dv fr, rect fr -> rect (fill dv fr) /\ fr_index (fill dv fr) = fr_index fr /\
  (forall c, In c (fr_cols (fill dv fr)) <-> In c (fr_cols fr) \/ exists f, c = CName f /\ In f (map fst dv)) /\
  Forall2 (fun r r1 => fst r1 = fst r /\ forall c v, in_col (fill dv fr) r1 c v <-> in_col fr r c v \/ filled dv fr c v) (fr_rows fr) (fr_rows (fill dv fr)).
Proof.
  induction dv as [| [f d] dv IH]; intros fr R.
  - split; auto. split; auto. split; [intros c; split; auto; intros [H | (g & _ & [])]; auto |].
    apply Forall2_refl_in. intros r _. split; auto. intros c v. unfold filled. simpl. split; auto. intros [H | (_ & g & _ & E)]; [auto | discriminate].
  - unfold fill. cbn [fold_left fst snd]. fold (fill dv (if has_col fr f then fr else add_col fr f d)). destruct (has_col fr f) eqn:E.
    + apply has_col_iff in E. destruct (IH fr R) as (A & B & C & D). split; auto. split; auto. split.
      * intros c. rewrite C. simpl. split; intros [H | (g & -> & H)]; auto; [right; eauto |]. destruct H as [<- | H]; [auto | right; eauto].
      * eapply Forall2_imp_in; [| exact D]. intros r r1 _ [H1 H2]. split; auto. intros c v. rewrite H2. unfold filled. split; (intros [H | (H & g & -> & Hg)]; [auto |]).
        -- right. split; auto. exists g. split; auto. cbn [dget fst snd]. destruct (String.eqb f g) eqn:Ef; auto. apply String.eqb_eq in Ef. subst g. contradiction.
        -- right. split; auto. exists g. split; auto. cbn [dget fst snd] in Hg. destruct (String.eqb f g) eqn:Ef; auto. apply String.eqb_eq in Ef. subst g. contradiction.
    + assert (~ In (CName f) (fr_cols fr)) as Hf by (intros H; apply has_col_iff in H; congruence).
      destruct (add_col_spec fr f d R Hf) as [R1 F1]. destruct (IH _ R1) as (A & B & C & D). split; auto. split; [rewrite B; auto |]. split.
      * intros c. rewrite C. cbn [add_col fr_cols]. rewrite in_app_iff. simpl. split.
        -- intros [[H | [<- | []]] | (g & -> & H)]; auto; right; eauto.
        -- intros [H | (g & -> & [<- | H])]; auto. right. eauto.
      * eapply Forall2_trans; [| exact F1 | exact D]. cbv beta. intros r r1 r2 [G1 G2] [H1 H2]. split; [congruence |]. intros c v. rewrite H2, G2. unfold filled. cbn [add_col fr_cols].
        rewrite in_app_iff. simpl. split.
        -- intros [[H | [-> ->]] | (H & g & -> & Hg)]; auto; right.
           ++ split; auto. exists f. split; auto. now rewrite String.eqb_refl.
           ++ split; [tauto |]. exists g. split; auto. destruct (String.eqb f g) eqn:Ef; auto. apply String.eqb_eq in Ef. subst g. tauto.
        -- intros [H | (H & g & -> & Hg)]; auto. destruct (String.eqb f g) eqn:Ef.
           ++ apply String.eqb_eq in Ef. subst g. injection Hg as ->. auto.
           ++ right. split; [| eauto]. intros [X | [X | []]]; auto. injection X as ->. now rewrite String.eqb_refl in Ef.
Qed.

Lemma reorder_spec : forall ts fr, rect fr -> NoDup (tfields ts) -> (forall f, In f (tfields ts) -> In (CName f) (fr_cols fr)) ->
  rect (reorder ts fr) /\ fr_index (reorder ts fr) = fr_index fr /\ firstn (List.length (tfields ts)) (fr_cols (reorder ts fr)) = map CName (tfields ts) /\
  (forall c, In c (fr_cols (reorder ts fr)) <-> In c (fr_cols fr)) /\
  Forall2 (fun r r1 => fst r1 = fst r /\ forall c v, in_col (reorder ts fr) r1 c v <-> in_col fr r c v) (fr_rows fr) (fr_rows (reorder ts fr)).
Proof.
  intros ts fr R Nt C. unfold reorder. rewrite map_length. destruct (list_eqb col_eqb (firstn (List.length (tfields ts)) (fr_cols fr)) (map CName (tfields ts))) eqn:E.
  { apply cols_eq in E. split; auto. split; auto. split; auto. split; [tauto |]. apply Forall2_refl_in. intros; split; tauto. }
  clear E. set (af := map CName (tfields ts)). set (extra := filter (fun c => negb (existsb (col_eqb c) af)) (fr_cols fr)).
  set (pick := fun (cells : list value) c => match find (fun cv => col_eqb c (fst cv)) (combine (fr_cols fr) cells) with Some cv => snd cv | None => VNone end).
  destruct R as [N Rr].
  assert (NoDup (af ++ extra)) as Nx.
  { apply NoDup_app_intro; [now apply names_NoDup | now apply NoDup_filter |]. intros c H1 H2. apply filter_In in H2 as [_ H2]. apply negb_true_iff in H2.
    apply col_in in H1. congruence. }
  assert (forall c, In c (af ++ extra) <-> In c (fr_cols fr)) as Hin.
  { intros c. rewrite in_app_iff. unfold extra. rewrite filter_In. split.
    - intros [H | [H _]]; auto. apply in_map_iff in H as (f & <- & H). auto.
    - intros H. destruct (existsb (col_eqb c) af) eqn:X; [left; now apply col_in | right; auto]. }
  assert (forall r c v, In r (fr_rows fr) -> In c (fr_cols fr) -> (pick (snd r) c = v <-> in_col fr r c v)) as Hp.
  { intros r c v Hr Hc. destruct (in_col_total fr r c (conj N Rr) Hr Hc) as [w Hw].
    assert (pick (snd r) c = w) as ->; [| split; [intros <-; auto | intros H; eapply in_col_fun; eauto; split; auto]].
    destruct (Rr _ Hr) as [_ L]. unfold pick. destruct Hw as (i & A & B). clear - N A B L. revert i A B. generalize dependent (snd r). clear r.
    induction (fr_cols fr) as [| c0 cols IH]; intros [| v0 cells] L i A B; try (destruct i; discriminate). cbn [combine find fst]. destruct i as [| i].
    - simpl in A, B. injection A as ->. injection B as ->. assert (col_eqb c c = true) as -> by now apply col_eqb_eq. reflexivity.
    - inversion N as [| ? ? N1 N2]; subst. destruct (col_eqb c c0) eqn:X.
      + apply col_eqb_eq in X. subst. exfalso. apply N1. simpl in A. eapply nth_error_In; eauto.
      + eapply IH; eauto. }
  cbv zeta. split; [| split; [auto | split; [| split; [auto |]]]].
  - split; auto. cbn [fr_rows fr_index fr_cols]. intros r Hr. apply in_map_iff in Hr as (r0 & <- & Hr). cbn [fst snd]. rewrite map_length. split; auto. now apply Rr.
  - cbn [fr_cols]. rewrite firstn_app. unfold af. rewrite map_length, Nat.sub_diag, firstn_O, app_nil_r. rewrite <- (map_length CName (tfields ts)). apply firstn_all.
  - cbn [fr_rows]. assert (forall l, (forall r, In r l -> In r (fr_rows fr)) ->
      Forall2 (fun r r1 => fst r1 = fst r /\ forall c v, in_col (mkFr (fr_index fr) (af ++ extra) (map (fun r => (fst r, map (pick (snd r)) (af ++ extra))) (fr_rows fr))) r1 c v <-> in_col fr r c v)
        l (map (fun r => (fst r, map (pick (snd r)) (af ++ extra))) l)) as G; [| apply G; auto].
    induction l as [| r l IH]; intros Hs; constructor; [| apply IH; intros; apply Hs; simpl; auto]. split; auto.
    assert (In r (fr_rows fr)) as Hr by (apply Hs; simpl; auto). intros c v. unfold in_col at 1. cbn [fr_cols snd]. split.
    + intros (i & A & B). assert (In c (fr_cols fr)) as Hc by (apply Hin; eapply nth_error_In; eauto). apply Hp; auto.
      apply (map_nth_error (pick (snd r))) in A. congruence.
    + intros H. pose proof (in_col_known _ _ _ _ H) as Hc. apply Hp in H; auto. apply Hin in Hc. apply In_nth_error in Hc as [i Hi]. exists i. split; auto.
      apply (map_nth_error (pick (snd r))) in Hi. congruence.
Qed.

(** ** One table *)

Lemma numbered_names : forall fr f, In (CName f) (fr_cols fr) -> numbered fr = false.
Proof.
  intros fr f H. apply not_true_is_false. intros E. apply cols_eq in E. rewrite E in H. apply in_map_iff in H as (n & X & _). discriminate.
Qed.

Theorem pan_frame : forall settle dv t ts fr, wf_tschema ts -> rect fr -> NoDup (fr_index fr) ->
  ((exists f, In (CName f) (fr_cols fr)) \/ indexed ts fr) ->
  (pan_table settle dv t ts (PFrame fr) = None <->
   exists f, In f (tfields ts) /\ ~ known ts fr (CName f) /\ ~ In f (map fst (defaults_of dv t))) /\
  (forall fr', pan_table settle dv t ts (PFrame fr) = Some fr' ->
     rect fr' /\ firstn (List.length (tfields ts)) (fr_cols fr') = map CName (tfields ts) /\
     (forall c, In c (fr_cols fr') <-> known ts fr c \/ exists f, c = CName f /\ In f (map fst (defaults_of dv t))) /\
     Forall2 (fun r r' => forall c v, in_col fr' r' c v <-> source ts fr r c v \/
        (~ known ts fr c /\ exists f, c = CName f /\ dget String.eqb (defaults_of dv t) f = Some v)) (fr_rows fr) (fr_rows fr')).
Proof.
  intros settle dv t ts fr W R Ni Hnm. unfold pan_table. cbn [as_frame].
  destruct (unindex_spec ts fr R Ni) as (fr1 & E1 & R1 & C1 & F1 & _ & _). rewrite E1.
  assert (numbered fr1 = false) as Hn.
  { destruct Hnm as [[f Hf] | Hi].
    - apply numbered_names with f. apply C1. left. auto.
    - destruct Hi as (A & B & C). destruct (tpk ts) as [| p pk] eqn:Ep; [contradiction |]. apply numbered_names with p. apply C1. right.
      assert (In (CName p) (map CName (tpk ts))) as Hp by (rewrite Ep; simpl; auto). split; [| rewrite Ep in Hp; now apply C]. unfold indexed. rewrite Ep. auto. }
  assert (rename ts fr1 = fr1) as -> by (unfold rename; now rewrite Hn). rewrite Hn.
  destruct (fill_spec (defaults_of dv t) fr1 R1) as (R2 & I2 & C2 & F2). cbv zeta. set (fr2 := fill (defaults_of dv t) fr1) in *.
  destruct (forallb (has_col fr2) (tfields ts)) eqn:Ef.
  - assert (forall f, In f (tfields ts) -> In (CName f) (fr_cols fr2)) as Hc.
    { intros f Hf. apply has_col_iff. rewrite forallb_forall in Ef. auto. }
    split.
    + split; [discriminate |]. intros (f & A & B & D). exfalso. apply Hc in A. apply C2 in A as [A | (g & Eg & A)]; [apply B; now apply C1 |].
      injection Eg as <-. auto.
    + intros fr' E. injection E as <-. destruct (reorder_spec ts fr2 R2 W Hc) as (R3 & I3 & P3 & C3 & F3). split; auto. split; auto. split.
      * intros c. rewrite C3, C2, C1. tauto.
      * assert (Forall2 (fun r1 r3 => forall c v, in_col (reorder ts fr2) r3 c v <-> in_col fr1 r1 c v \/ filled (defaults_of dv t) fr1 c v) (fr_rows fr1) (fr_rows (reorder ts fr2))) as F4.
        { eapply Forall2_trans; [| exact F2 | exact F3]. cbv beta. intros r1 r2 r3 [_ H2] [_ H3] c v. now rewrite H3, H2. }
        eapply Forall2_trans; [| exact F1 | exact F4]. cbv beta. intros r r1 r3 H1 H3 c v. rewrite H3, H1. unfold filled. now rewrite C1.
  - split; [| discriminate]. split; auto. intros _. apply not_true_iff_false in Ef. 
    assert (exists f, In f (tfields ts) /\ ~ In (CName f) (fr_cols fr2)) as (f & A & B).
    { clear - Ef. induction (tfields ts) as [| f fs IH]; [now destruct Ef |]. cbn [forallb] in Ef. destruct (has_col fr2 f) eqn:E.
      - destruct IH as (g & A & B); [auto |]. exists g. simpl. auto.
      - exists f. split; [simpl; auto |]. intros H. apply has_col_iff in H. congruence. }
    exists f. split; auto. split.
    + intros H. apply B. apply C2. left. now apply C1.
    + intros H. apply B. apply C2. right. eauto.
Qed.

(** A list of rows: cells by position. *)
Theorem pan_rows : forall settle dv t ts n rows, tfields ts <> [] -> defaults_on_data ts (defaults_of dv t) ->
  pan_table settle dv t ts (PRows n rows) =
    if Nat.leb (List.length (tfields ts)) n
    then Some (mkFr [] (map CName (tfields ts) ++ map CPos (seq (List.length (tfields ts)) (n - List.length (tfields ts)))) (map (fun r => ([], r)) (settled settle n rows)))
    else None.
Proof.
  intros settle dv t ts n rows Hne D. unfold pan_table. cbn [as_frame]. set (fr := mkFr [] (map CPos (seq 0 n)) (map (fun r => ([], r)) (settled settle n rows))).
  assert (unindex ts fr = Some fr) as ->.
  { unfold unindex. destruct (tpk ts) as [| p pk]; auto. cbn [fr fr_index forallb existsb andb]. rewrite andb_false_r. reflexivity. }
  assert (numbered fr = true) as Hn.
  { unfold numbered. apply cols_eq. cbn [fr fr_cols]. now rewrite map_length, seq_length. }
  unfold rename. rewrite Hn. cbn [fr fr_cols andb]. rewrite map_length, seq_length.
  destruct (Nat.leb (List.length (tfields ts)) n) eqn:El.
  - apply Nat.leb_le in El. cbn [fr fr_index fr_rows fr_cols]. set (k := List.length (tfields ts)) in *.
    assert (skipn k (map CPos (seq 0 n)) = map CPos (seq k (n - k))) as ->.
    { rewrite skipn_map. f_equal. assert (seq 0 n = seq 0 k ++ seq k (n - k)) as -> by (rewrite <- seq_app; f_equal; lia).
      rewrite skipn_app, seq_length, Nat.sub_diag. rewrite skipn_all2 by (rewrite seq_length; lia). reflexivity. }
    set (fr2 := mkFr [] (map CName (tfields ts) ++ map CPos (seq k (n - k))) (map (fun r => ([], r)) (settled settle n rows))).
    assert (forall f, In f (tfields ts) -> In (CName f) (fr_cols fr2)) as Hc by (intros f Hf; simpl; apply in_or_app; left; now apply in_map).
    assert (numbered fr2 = false) as ->.
    { destruct (tfields ts) as [| f fs]; [contradiction |]. apply numbered_names with f. apply Hc. simpl. auto. }
    rewrite fill_nothing by (intros f Hf; apply Hc; apply in_or_app; right; now apply D).
    assert (forallb (has_col fr2) (tfields ts) = true) as -> by (apply forallb_forall; intros f Hf; apply has_col_iff; auto).
    unfold reorder. rewrite map_length. cbn [fr2 fr_cols]. rewrite firstn_app, map_length. fold k. rewrite Nat.sub_diag, firstn_O, app_nil_r.
    unfold k. rewrite <- (map_length CName (tfields ts)), firstn_all. rewrite (proj2 (cols_eq _ _)) by auto. reflexivity.
  - fold fr. rewrite Hn. destruct (tfields ts) as [| f fs]; [contradiction |]. cbn [forallb].
    assert (has_col fr f = false) as ->; auto. apply not_true_is_false. intros H. apply has_col_iff in H. cbn [fr fr_cols] in H.
    apply in_map_iff in H as (m & X & _). discriminate.
Qed.

(** ** All tables *)

Theorem pan_dat_tables : forall settle sch dv inputs, wf_schema sch -> NoDup (map fst inputs) ->
  match pan_dat settle sch dv inputs with
  | None => exists t a, In (t, a) inputs /\ falsy a = false /\ (~ In t (map fst sch) \/ exists ts, In (t, ts) sch /\ pan_table settle dv t ts a = None)
  | Some d => forall t ts, In (t, ts) sch ->
      (forall a, In (t, a) inputs -> falsy a = false -> pan_table settle dv t ts a = Some (d t)) /\
      ((forall a, In (t, a) inputs -> falsy a = true) -> d t = mkFr [] (map CName (tfields ts)) [])
  end.
Proof.
  intros settle sch dv inputs W Hn. unfold pan_dat.
  set (g := fun tx : string * pattr => match dget String.eqb sch (fst tx) with Some ts => option_map (pair (fst tx)) (pan_table settle dv (fst tx) ts (snd tx)) | None => None end).
  set (ins := filter (fun tx => negb (falsy (snd tx))) inputs).
  destruct (map_opt g ins) as [built |] eqn:E.
  - apply map_opt_Forall2 in E.
    assert (map fst built = map fst ins) as En.
    { clear - E. induction E as [| [t a] [t' fr] l m H _ IH]; auto. cbn [map]. rewrite IH. f_equal. unfold g in H. cbn [fst snd] in *.
      destruct (dget String.eqb sch t); [| discriminate]. destruct (pan_table _ _ _ _ _); [| discriminate]. simpl in H. congruence. }
    assert (NoDup (map fst built)) as Nb.
    { rewrite En. unfold ins. clear - Hn. induction inputs as [| [t a] l IH]; simpl in *; auto. inversion Hn as [| ? ? A B]; subst. destruct (negb (falsy a)); simpl; auto.
      constructor; auto. intros H. apply A. apply in_map_iff in H as (x & Ex & H). apply filter_In in H as [H _]. apply in_map_iff. eauto. }
    intros t ts Hin. split.
    + intros a Ha Hf. assert (In (t, a) ins) as Hi by (apply filter_In; split; auto; simpl; now rewrite Hf).
      destruct (Forall2_In_l _ _ _ _ E Hi) as ([t' fr] & Hb & G). unfold g in G. cbn [fst snd] in G. rewrite (proj2 (schema_get sch t ts (proj1 W)) Hin) in G.
      destruct (pan_table settle dv t ts a) as [fr0 |] eqn:Ep; [| discriminate]. simpl in G. injection G as <- <-.
      rewrite (proj2 (dget_In_NoDup _ _ _ Nb) Hb). reflexivity.
    + intros Ha. assert (dget String.eqb built t = None) as ->.
      { destruct (dget String.eqb built t) as [fr |] eqn:Ed; auto. exfalso. apply dget_In_NoDup in Ed; auto. apply (in_map fst) in Ed. rewrite En in Ed.
        apply in_map_iff in Ed as ([t' a] & Et & Hi). cbn [fst] in Et. subst t'. apply filter_In in Hi as [Hi Hf]. cbn [snd] in Hf. now rewrite (Ha a Hi) in Hf. }
      now rewrite (proj2 (schema_get sch t ts (proj1 W)) Hin).
  - assert (exists x, In x ins /\ g x = None) as ([t a] & Hi & Hg).
    { clear - E. induction ins as [| x l IH]; [discriminate |]. cbn [map_opt] in E. destruct (g x) eqn:Eg; [| exists x; simpl; auto].
      destruct (map_opt g l) eqn:El; [discriminate |]. destruct (IH eq_refl) as (y & A & B). exists y. simpl. auto. }
    apply filter_In in Hi as [Hi Hf]. cbn [snd] in Hf. exists t, a. split; auto. split; [now apply negb_true_iff |]. unfold g in Hg. cbn [fst snd] in Hg.
    destruct (dget String.eqb sch t) as [ts |] eqn:Ed.
    + right. exists ts. split; [now apply schema_get in Ed; [| apply W] |]. destruct (pan_table settle dv t ts a); [discriminate | auto].
    + left. intros H. apply in_map_iff in H as ([t' ts] & Et & H). cbn [fst] in Et. subst t'. apply (schema_get sch t ts (proj1 W)) in H. congruence.
Qed.
