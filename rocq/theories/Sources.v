(** * How the readers look for a table: none, one, or too many. *)
From Coq Require Import ZArith Bool List String Ascii Arith Lia.
From Verif Require Import PyVal PyDict PyStr TypeDict Data FindTypes Obj Factory InfIO Utils Names NamesFacts Json ObjRows Csv Xls.
Import ListNotations.
Local Open Scope string_scope.
Local Open Scope list_scope.

(** Two entries at different places. *)
Definition twice {A} (P : A -> Prop) (l : list A) : Prop :=
  exists i j a c, i <> j /\ nth_error l i = Some a /\ nth_error l j = Some c /\ P a /\ P c.
(** Exactly one. *)
Definition once {A} (P : A -> Prop) (l : list A) (a : A) : Prop :=
  exists i, nth_error l i = Some a /\ P a /\ forall j c, nth_error l j = Some c -> P c -> j = i.

Lemma filter_none {A} (p : A -> bool) : forall l, filter p l = [] <-> forall a, In a l -> p a = false.
Proof.
  induction l as [| a l IH]; simpl; [split; auto; intros _ ? [] |]. destruct (p a) eqn:E.
  - split; [discriminate |]. intros H. rewrite (H a) in E; auto; discriminate.
  - rewrite IH. split; [intros H x [<- | Hx]; auto | auto].
Qed.

Lemma filter_once {A} (p : A -> bool) : forall l a, filter p l = [a] <-> once (fun x => p x = true) l a.
Proof.
  induction l as [| b l IH]; intros a; simpl.
  - split; [discriminate |]. intros ([| i] & E & _); discriminate.
  - destruct (p b) eqn:E.
    + split.
      * intros H. injection H as <- H. exists 0. split; auto. split; auto. intros [| j] c Hj Hc; auto. exfalso.
        rewrite (proj1 (filter_none p l) H c) in Hc; [discriminate | eapply nth_error_In; eauto].
      * intros (i & E1 & E2 & E3). pose proof (E3 0 b eq_refl E) as <-. injection E1 as <-. f_equal. apply filter_none.
        intros c Hc. apply In_nth_error in Hc as (j & Hj). destruct (p c) eqn:Ec; auto. pose proof (E3 (S j) c Hj Ec). discriminate.
    + rewrite IH. split.
      * intros (i & E1 & E2 & E3). exists (S i). split; auto. split; auto. intros [| j] c Hj Hc; [injection Hj as <-; congruence | f_equal; eauto].
      * intros ([| i] & E1 & E2 & E3); [injection E1 as <-; congruence |]. exists i. split; auto. split; auto. intros j c Hj Hc. specialize (E3 (S j) c Hj Hc). lia.
Qed.

Lemma filter_twice {A} (p : A -> bool) : forall l, (exists a c r, filter p l = a :: c :: r) <-> twice (fun x => p x = true) l.
Proof.
  intros l. split.
  - induction l as [| b l IH]; simpl; intros (a & c & r & H); [discriminate |]. destruct (p b) eqn:E.
    + injection H as <- H. assert (In c (filter p l)) as Hc by (rewrite H; simpl; auto). apply filter_In in Hc as [Hc Ec].
      apply In_nth_error in Hc as (j & Hj). exists 0, (S j), b, c. repeat split; auto.
    + destruct IH as (i & j & x & y & H1 & H2 & H3 & H4); eauto. exists (S i), (S j), x, y. split; [lia |]. auto.
  - intros (i & j & x & y & H1 & H2 & H3 & H4 & H5). destruct (filter p l) as [| a [| c r]] eqn:E; eauto.
    + rewrite (proj1 (filter_none p l) E x) in H4; [discriminate | eapply nth_error_In; eauto].
    + apply filter_once in E as (k & _ & _ & U). exfalso. apply H1. rewrite (U i x H2 H4), (U j y H3 H5). auto.
Qed.

(** The common shape of the four functions. *)
Definition pick {A B} (g : A -> B) (l : list A) : outcome (option B) :=
  match l with [] => Ret None | [a] => Ret (Some (g a)) | _ => Raise end.
Lemma pick_cases {A B} (g : A -> B) (p : A -> bool) (P : A -> Prop) : (forall a, p a = true <-> P a) -> forall l,
  (pick g (filter p l) = Ret None <-> forall a, In a l -> ~ P a) /\
  (forall b, pick g (filter p l) = Ret (Some b) <-> exists a, once P l a /\ b = g a) /\
  (pick g (filter p l) = Raise <-> twice P l).
Proof.
  intros HP l.
  assert (forall a, once P l a <-> once (fun x => p x = true) l a) as Ho.
  { intros a. unfold once. split; intros (i & H1 & H2 & H3); exists i; (split; [exact H1 |]); (split; [now apply HP |]); intros; eapply H3; eauto; now apply HP. }
  assert (twice P l <-> twice (fun x => p x = true) l) as Ht.
  { unfold twice. split; intros (i & j & a & c & H); exists i, j, a, c; rewrite !HP in *; tauto. }
  rewrite Ht, <- filter_twice. split; [| split].
  - transitivity (filter p l = []).
    + destruct (filter p l) as [| a [| c r]]; simpl; split; auto; discriminate.
    + rewrite filter_none. split; intros H a Ha.
      * intros X. apply HP in X. rewrite (H a Ha) in X. discriminate.
      * destruct (p a) eqn:E; auto. apply HP in E. exfalso. eapply H; eauto.
  - intros b. transitivity (exists a, filter p l = [a] /\ b = g a).
    + destruct (filter p l) as [| a [| c r]]; simpl; split; try discriminate; try (intros (x & H & _); discriminate).
      * intros H. injection H as <-. eauto.
      * intros (x & H & ->). now injection H as ->.
    + split; intros (a & H & ->); exists a; (split; [| reflexivity]); [apply Ho, filter_once, H | apply filter_once, Ho, H].
  - destruct (filter p l) as [| a [| c r]]; simpl; split; auto; try discriminate; try (intros (x & y & z & H); discriminate). intros _. eauto.
Qed.

(** ** The four kinds of sources *)

Definition csv_for (t : string) (e : string * bool) : Prop := snd e = true /\ unspace (fst e) = (lower t ++ ".csv")%string.
Definition key_for (t k : string) : Prop := unspace k = lower t.
Definition sheet_for (t s : string) : Prop := stake longest_sheet (unspace s) = stake longest_sheet (lower t).

Theorem files_cases : forall listing t,
  (get_file_path listing t = Ret None <-> forall e, In e listing -> ~ csv_for t e) /\
  (forall n, get_file_path listing t = Ret (Some n) <-> exists e, once (csv_for t) listing e /\ n = fst e) /\
  (get_file_path listing t = Raise <-> twice (csv_for t) listing).
Proof.
  intros listing t. apply (pick_cases fst (fun e => snd e && csv_match t (fst e)) (csv_for t)). intros e. unfold csv_for, csv_match.
  now rewrite andb_true_iff, String.eqb_eq.
Qed.

Theorem keys_cases : forall keys t,
  (get_json_key keys t = Ret None <-> forall k, In k keys -> ~ key_for t k) /\
  (forall k, get_json_key keys t = Ret (Some k) <-> once (key_for t) keys k) /\
  (get_json_key keys t = Raise <-> twice (key_for t) keys).
Proof.
  intros keys t. destruct (pick_cases (fun k => k) (json_match t) (key_for t)) with (l := keys) as (A & B & C).
  { intros k. unfold key_for, json_match. now rewrite String.eqb_eq. }
  split; [exact A |]. split; [| exact C]. intros k. etransitivity; [apply B |]. split; [intros (a & H & ->); auto | eauto].
Qed.

Theorem sheets_cases : forall sheets t,
  (get_sheet sheets t = Ret None <-> forall s, In s sheets -> ~ sheet_for t s) /\
  (forall s, get_sheet sheets t = Ret (Some s) <-> once (sheet_for t) sheets s) /\
  (get_sheet sheets t = Raise <-> twice (sheet_for t) sheets).
Proof.
  intros sheets t. destruct (pick_cases (fun s => s) (sheet_match t) (sheet_for t)) with (l := sheets) as (A & B & C).
  { intros k. unfold sheet_for, sheet_match. rewrite String.eqb_eq. split; auto. }
  split; [exact A |]. split; [| exact C]. intros k. etransitivity; [apply B |]. split; [intros (a & H & ->); auto | eauto].
Qed.

(** Databases. *)
Fixpoint laid (n t : string) : string :=
  match n, t with
  | String a n', String b t' => String (if Ascii.eqb a " " then " "%char else b) (laid n' t')
  | _, _ => ""
  end.

Lemma laid_variant : forall n t, has_char " " t = false -> unspace n = lower t -> space_variant t (laid n t) /\ lower (laid n t) = lower n.
Proof.
  induction n as [| a n IH]; intros [| b t] Hs H; try discriminate.
  - split; [| reflexivity]. split; auto. intros p c c' X. destruct p; discriminate.
  - unfold unspace, lower in H. simpl in H. injection H as H1 H2. simpl in Hs. apply orb_false_iff in Hs as [Hb Hs].
    destruct (IH t Hs H2) as [[L V] E]. cbn [laid]. split.
    + split; [simpl; f_equal; exact L |]. intros [| p] c c' Hc Hc'; simpl in Hc, Hc'; [| eauto]. injection Hc as <-. injection Hc' as <-.
      destruct (Ascii.eqb a " ") eqn:Ea; auto. right. split; auto. apply Ascii.eqb_eq in Ea. subst a.
      change (lower_char " ") with " "%char in H1. simpl in H1.
      pose proof (lower_underscore b) as Q. rewrite <- H1 in Q. symmetry in Q. now apply Ascii.eqb_eq in Q.
    + unfold lower in *. simpl. rewrite E. f_equal. destruct (Ascii.eqb a " ") eqn:Ea.
      * apply Ascii.eqb_eq in Ea. subst a. reflexivity.
      * rewrite <- H1. destruct (Ascii.eqb (lower_char a) " ") eqn:El; auto. exfalso.
        revert Ea El. clear. destruct a as [[] [] [] [] [] [] [] []]; vm_compute; discriminate.
Qed.

Theorem db_cases : forall db t, has_char " " t = false ->
  (get_db_table db t = Ret None <-> forall n, In n db -> ~ key_for t n) /\
  (forall y, get_db_table db t = Ret (Some y) ->
     exists n, In n db /\ key_for t n /\ lower y = lower n /\ forall n', In n' db -> key_for t n' -> lower n' = lower n) /\
  (get_db_table db t = Raise <-> exists n n', In n db /\ In n' db /\ key_for t n /\ key_for t n' /\ lower n <> lower n').
Proof.
  intros db t Hs.
  assert (forall n, In n db -> key_for t n -> exists y, In y (filter (try_name db) (all_underscore_replacements t)) /\ lower y = lower n) as Fwd.
  { intros n Hn Hk. destruct (laid_variant n t Hs Hk) as [V E]. exists (laid n t). split; auto. apply filter_In. split; [now apply replacements_iff |].
    apply mem_str_iff. rewrite E. now apply in_map. }
  assert (forall y, In y (filter (try_name db) (all_underscore_replacements t)) -> exists n, In n db /\ key_for t n /\ lower y = lower n) as Bwd.
  { intros y Hy. apply filter_In in Hy as [Hy Ht]. apply replacements_iff in Hy. apply mem_str_iff, in_map_iff in Ht as (n & E & Hn).
    exists n. split; auto. split; auto. unfold key_for. rewrite (lower_unspace_eq _ _ E). now apply variant_unspace. }
  assert (forall a c, In a (filter (try_name db) (all_underscore_replacements t)) -> In c (filter (try_name db) (all_underscore_replacements t)) -> lower a = lower c -> a = c) as Inj.
  { intros a c Ha Hc E. apply filter_In in Ha as [Ha _]. apply filter_In in Hc as [Hc _]. apply replacements_iff in Ha, Hc. eapply variant_lower_inj; eauto. }
  assert (NoDup (filter (try_name db) (all_underscore_replacements t))) as N by (apply NoDup_filter, replacements_NoDup).
  unfold get_db_table. destruct (filter (try_name db) (all_underscore_replacements t)) as [| a [| c r]].
  - split; [| split].
    + split; auto. intros _ n Hn Hk. destruct (Fwd n Hn Hk) as (y & [] & _).
    + discriminate.
    + split; [discriminate |]. intros (n & _ & Hn & _ & Hk & _). destruct (Fwd n Hn Hk) as (y & [] & _).
  - split; [| split].
    + split; [discriminate |]. intros H. destruct (Bwd a) as (n & Hn & Hk & _); [simpl; auto |]. exfalso. eapply H; eauto.
    + intros y Hy. injection Hy as <-. destruct (Bwd a) as (n & Hn & Hk & E); [simpl; auto |]. exists n. repeat split; auto.
      intros n' Hn' Hk'. destruct (Fwd n' Hn' Hk') as (y & [<- | []] & E'). congruence.
    + split; [discriminate |]. intros (n & n' & Hn & Hn' & Hk & Hk' & Hne). exfalso. apply Hne.
      destruct (Fwd n Hn Hk) as (y & [<- | []] & E). destruct (Fwd n' Hn' Hk') as (y & [<- | []] & E'). congruence.
  - split; [| split].
    + split; [discriminate |]. intros H. destruct (Bwd a) as (n & Hn & Hk & _); [simpl; auto |]. exfalso. eapply H; eauto.
    + discriminate.
    + split; auto. intros _. destruct (Bwd a) as (n & Hn & Hk & E); [simpl; auto |]. destruct (Bwd c) as (n' & Hn' & Hk' & E'); [simpl; auto |].
      exists n, n'. repeat split; auto. intros X. assert (a = c) by (apply Inj; simpl; auto; congruence). subst c. inversion N. simpl in *. tauto.
Qed.

(** ** The readers *)

Lemma mapO_one_raise {A B} (g : A -> outcome B) l a : In a l -> g a = Raise -> mapO g l = Raise.
Proof. induction l as [| b l IH]; [intros [] |]. intros [-> | H] E; cbn [mapO]; [now rewrite E | destruct (g b); auto; now rewrite IH]. Qed.

Section Readers.
  Variable date_of : value -> option Z.
  Variable float_of : value -> option value.
  Variable f : factory.

  Theorem csv_ambiguous : forall hdr dir t ts, In (t, ts) (plain_schema f) -> twice (csv_for t) (map fst dir) ->
    csv_create date_of float_of f hdr dir = Raise.
  Proof.
    intros hdr dir t ts Hin Ht. unfold csv_create. rewrite (mapO_one_raise _ _ (t, ts)); auto. unfold csv_input, file_of. cbn [fst].
    now rewrite (proj2 (proj2 (proj2 (files_cases _ _))) Ht).
  Qed.

  Theorem csv_dups_ambiguous : forall hdr dir t ts, In (t, ts) (plain_schema f) -> tpk ts <> [] -> twice (csv_for t) (map fst dir) ->
    csv_duplicates date_of float_of f hdr dir = Raise.
  Proof.
    intros hdr dir t ts Hin Hp Ht. unfold csv_duplicates. rewrite (mapO_one_raise _ _ (t, ts)); auto.
    - unfold keyed_tables. apply filter_In. split; auto. cbn [snd]. destruct (tpk ts); [contradiction | reflexivity].
    - unfold file_of. cbn [fst]. now rewrite (proj2 (proj2 (proj2 (files_cases _ _))) Ht).
  Qed.

  Theorem xls_ambiguous : forall b hdr inf offsets t ts, In (t, ts) (plain_schema f) -> twice (sheet_for t) (map fst (bk_sheets b)) ->
    xls_create date_of float_of f b hdr inf offsets = Raise.
  Proof.
    intros b hdr inf offsets t ts Hin Ht. unfold xls_create. destruct (sheets_differ _); auto. rewrite (mapO_one_raise _ _ (t, ts)); auto. unfold xls_input, sheet_of. cbn [fst].
    now rewrite (proj2 (proj2 (proj2 (sheets_cases _ _))) Ht).
  Qed.

  Theorem xls_dups_ambiguous : forall b hdr offsets t ts, In (t, ts) (plain_schema f) -> tpk ts <> [] -> twice (sheet_for t) (map fst (bk_sheets b)) ->
    xls_duplicates date_of float_of f b hdr offsets = Raise.
  Proof.
    intros b hdr offsets t ts Hin Hp Ht. unfold xls_duplicates. destruct (sheets_differ _); auto. rewrite (mapO_one_raise _ _ (t, ts)); auto.
    - unfold keyed_tables. apply filter_In. split; auto. cbn [snd]. destruct (tpk ts); [contradiction | reflexivity].
    - unfold sheet_of. cbn [fst]. now rewrite (proj2 (proj2 (proj2 (sheets_cases _ _))) Ht).
  Qed.

  Theorem json_ambiguous : forall doc t ts, In (t, ts) (plain_schema f) -> twice (key_for t) (map fst doc) ->
    json_create date_of float_of f doc = Raise.
  Proof.
    intros doc t ts Hin Ht. unfold json_create, json_inputs. rewrite (mapO_one_raise _ _ (t, ts)); auto. cbn [fst].
    now rewrite (proj2 (proj2 (proj2 (keys_cases _ _))) Ht).
  Qed.
End Readers.
