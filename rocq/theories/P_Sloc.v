(** Property C168: sloc. *)
From Coq Require Import ZArith Bool List String Arith Lia.
From Verif Require Import PyVal PyValFacts PyDict Data FindTypes FK Factory InfIO Sloc.
Import ListNotations.
Local Open Scope string_scope.
Local Open Scope list_scope.

(** Every row has a label for each level. *)
Definition series_ok (s : series) : Prop := forall k v, In (k, v) (s_rows s) -> List.length k = s_levels s.

(** Row [r] carries the labels that the key asks for. *)
Definition asked (within : value -> value -> value -> bool) (k : lockey) (r : list value * value) : Prop :=
  forall i p v, nth_error (match k with One q => [q] | Tuple l => l end) i = Some p -> nth_error (fst r) i = Some v ->
    match p with
    | Label w => canon w = canon v
    | Colon => True
    | Span a b => within a b v = true
    end.

(** A key for the levels of the series whose slices, other than [:], are on sorted levels. *)
Definition proper (s : series) (k : lockey) : Prop :=
  let parts := match k with One q => [q] | Tuple l => l end in
  List.length parts <= s_levels s /\
  forall i a b, nth_error parts i = Some (Span a b) -> i < s_sorted s.

(** The rows asked for, in order. *)
Inductive rows_asked (P : list value * value -> Prop) : list (list value * value) -> list (list value * value) -> Prop :=
| ra_nil : rows_asked P [] []
| ra_take : forall r l m, P r -> rows_asked P l m -> rows_asked P (r :: l) (r :: m)
| ra_skip : forall r l m, ~ P r -> rows_asked P l m -> rows_asked P (r :: l) m.

Lemma asked_iff : forall within k r,
  forallb (fun pv => part_ok within (fst pv) (snd pv)) (combine (parts_of k) (fst r)) = true <-> asked within k r.
Proof.
  intros within k [ls v]. unfold asked. cbn [fst]. change (match k with One q => [q] | Tuple l => l end) with (parts_of k).
  revert ls. induction (parts_of k) as [| p ps IH]; intros ls.
  - simpl. split; auto. intros _ i p w H. destruct i; discriminate.
  - destruct ls as [| l ls]; simpl.
    + split; auto. intros _ i q w _ H. destruct i; discriminate.
    + rewrite andb_true_iff, IH. split.
      * intros [A B] [| i] q w H1 H2; simpl in H1, H2; [| exact (B i q w H1 H2)]. injection H1 as <-. injection H2 as <-.
        destruct p; simpl in A; auto. now apply pyeq_iff.
      * intros H. split.
        -- specialize (H 0 p l eq_refl eq_refl). destruct p; simpl; auto. now apply pyeq_iff.
        -- intros i q w H1 H2. apply (H (S i)); auto.
Qed.

Lemma selected_asked : forall within s k, rows_asked (asked within k) (s_rows s) (selected within s k).
Proof.
  intros within s k. unfold selected. induction (s_rows s) as [| r l IH]; simpl; [constructor |].
  destruct (forallb _ _) eqn:E.
  - apply ra_take; auto. now apply asked_iff.
  - apply ra_skip; auto. intros H. apply asked_iff in H. congruence.
Qed.

Lemma nth_skipn {A} : forall n (l : list A) i p, nth_error (skipn n l) i = Some p -> nth_error l (n + i) = Some p.
Proof. induction n as [| n IH]; intros [| q l] i p H; simpl in *; auto. destruct i; discriminate. Qed.

Lemma proper_tests : forall s k, proper s k ->
  Nat.ltb (s_levels s) (List.length (parts_of k)) = false /\ existsb is_span (skipn (s_sorted s) (parts_of k)) = false.
Proof.
  intros s k [A B]. change (match k with One q => [q] | Tuple l => l end) with (parts_of k) in *. split.
  - apply Nat.ltb_ge. auto.
  - apply not_true_iff_false. intros H. apply existsb_exists in H as (p & Hin & Hp).
    apply In_nth_error in Hin as [i Hi].
    assert (nth_error (parts_of k) (s_sorted s + i) = Some p) as Hn.
    { now apply nth_skipn. }
    destruct p; try discriminate. apply B in Hn. lia.
Qed.

Lemma all_colons : forall within s k, forallb is_colon (parts_of k) = true -> selected within s k = s_rows s.
Proof.
  intros within s k H. unfold selected. induction (s_rows s) as [| r l IH]; simpl; auto.
  replace (forallb _ _) with true; [now rewrite IH |]. symmetry. apply forallb_forall. intros [p v] Hin. apply in_combine_l in Hin.
  rewrite forallb_forall in H. apply H in Hin. destruct p; try discriminate. reflexivity.
Qed.

(** ** C168 *)

(** A slice of a level that is not sorted gives no row, although rows are asked for: the first level of the column
    below, as copy_to_pandas makes it, goes from 2 down to 1, and pandas counts no sorted level ([depth]). *)
Theorem C168_unsorted_refuted : exists within rows k r,
  map fst rows = [[VNum (of_int 2); VStr "x"]; [VNum (of_int 1); VStr "y"]] /\ In r rows /\ asked within k r /\
  forall depth, depth (map fst rows) = 0 ->
    let s := column_series depth 2 rows in
    series_ok s /\ s_rows s = rows /\ List.length (match k with One q => [q] | Tuple l => l end) <= s_levels s /\
    loc within s k = Raise /\ sloc within s k = Ret [].
Proof.
  set (int z := VNum (of_int (Z.of_nat z))).
  exists (fun a b v => pyeq a v || pyeq b v), [([int 2; VStr "x"], int 7); ([int 1; VStr "y"], int 8)],
    (Tuple [Span (int 1) (int 2); Colon]), ([int 2; VStr "x"], int 7).
  split; [reflexivity |]. split; [now left |]. split; [apply asked_iff; vm_compute; reflexivity |].
  intros depth Hd s. unfold s, column_series. rewrite Hd. split; [| split; [reflexivity | split; [simpl; lia | split; reflexivity]]].
  intros k v [E | [E | []]]; injection E as <- <-; reflexivity.
Qed.
Print Assumptions C168_unsorted_refuted.

(** A key with too many entries is not refused. *)
Theorem C168_too_many_refuted : forall within s l, s_levels s < List.length l -> In Colon l ->
  loc within s (Tuple l) = Raise /\ sloc within s (Tuple l) = Ret [].
Proof.
  intros within s l H Hin. assert (loc within s (Tuple l) = Raise) as E.
  { unfold loc. cbn [parts_of]. apply Nat.ltb_lt in H. now rewrite H. }
  split; auto. unfold sloc. rewrite E. replace (existsb is_colon l) with true; auto. symmetry. apply existsb_exists. exists Colon. auto.
Qed.
Print Assumptions C168_too_many_refuted.

(** A proper key with a [:] gives the rows asked for, none included. *)
Theorem C168_slice : forall within s l, proper s (Tuple l) -> In Colon l ->
  exists rows, sloc within s (Tuple l) = Ret rows /\ rows_asked (asked within (Tuple l)) (s_rows s) rows.
Proof.
  intros within s l Hp Hin. destruct (proper_tests _ _ Hp) as [A B]. exists (selected within s (Tuple l)).
  split; [| apply selected_asked]. unfold sloc, loc. rewrite A, B. cbn [parts_of] in *.
  destruct (forallb is_colon l) eqn:E; [now rewrite all_colons |].
  destruct (selected within s (Tuple l)); auto. replace (existsb is_colon l) with true; auto.
  symmetry. apply existsb_exists. exists Colon. auto.
Qed.
Print Assumptions C168_slice.

(** A proper key without [:] gives the rows asked for, and raises when there is none. *)
Theorem C168_no_slice : forall within s k, proper s k -> ~ In Colon (match k with One q => [q] | Tuple l => l end) ->
  (forall rows, sloc within s k = Ret rows -> rows <> [] \/ k = Tuple []) /\
  (forall rows, sloc within s k = Ret rows -> rows_asked (asked within k) (s_rows s) rows) /\
  (sloc within s k = Raise <-> k <> Tuple [] /\ forall r, In r (s_rows s) -> ~ asked within k r).
Proof.
  intros within s k Hp Hc. destruct (proper_tests _ _ Hp) as [A B].
  change (match k with One q => [q] | Tuple l => l end) with (parts_of k) in *.
  assert (forall r, In r (selected within s k) <-> In r (s_rows s) /\ asked within k r) as Hsel.
  { intros r. unfold selected. rewrite filter_In, asked_iff. reflexivity. }
  assert (match k with Tuple l => existsb is_colon l | One _ => false end = false) as Hx.
  { destruct k as [p | l]; auto. apply not_true_iff_false. intros H. apply existsb_exists in H as ([] & Hin & Hq); try discriminate.
    now apply Hc. }
  assert (sloc within s k = if forallb is_colon (parts_of k) then Ret (s_rows s) else
            match selected within s k with [] => Raise | l => Ret l end) as Hs.
  { unfold sloc, loc. rewrite A, B. destruct (forallb is_colon (parts_of k)); auto.
    destruct (selected within s k); auto. destruct k; auto. now rewrite Hx. }
  destruct (forallb is_colon (parts_of k)) eqn:E.
  - assert (k = Tuple []) as ->.
    { destruct k as [p | [| p l]]; auto; simpl in E, Hc; destruct p; try discriminate; exfalso; apply Hc; now left. }
    split; [auto |]. split.
    + intros rows Hr. rewrite Hs in Hr. injection Hr as <-. rewrite <- (all_colons within s (Tuple []) E) at 2. apply selected_asked.
    + rewrite Hs. split; [discriminate | intros [H _]; congruence].
  - split; [| split].
    + intros rows Hr. rewrite Hs in Hr. destruct (selected within s k); [discriminate |]. injection Hr as <-. left. discriminate.
    + intros rows Hr. rewrite Hs in Hr. pose proof (selected_asked within s k) as Ha. destruct (selected within s k); [discriminate |].
      injection Hr as <-. exact Ha.
    + rewrite Hs. destruct (selected within s k) as [| r l] eqn:El.
      * split; auto. intros _. split.
        -- intros ->. discriminate.
        -- intros r Hr Ha. destruct (proj2 (Hsel r) (conj Hr Ha)).
      * split; [discriminate |]. intros [_ H]. exfalso. destruct (proj1 (Hsel r) (or_introl eq_refl)) as [H1 H2]. exact (H _ H1 H2).
Qed.
Print Assumptions C168_no_slice.

Example C168_ex : exists within s, series_ok s /\ proper s (Tuple [Colon; Label (VStr "z")]) /\ proper s (Tuple [Label (VStr "a"); Colon]) /\
  proper s (Tuple [Label (VStr "z")]) /\ loc within s (Tuple [Colon; Label (VStr "z")]) = Raise /\
  sloc within s (Tuple [Colon; Label (VStr "z")]) = Ret [] /\
  sloc within s (Tuple [Label (VStr "a"); Colon]) = Ret [([VStr "a"; VStr "x"], VBool true); ([VStr "a"; VStr "y"], VBool false)] /\
  sloc within s (Tuple [Label (VStr "z")]) = Raise /\ sloc within s (One (Label (VStr "b"))) = Ret [([VStr "b"; VStr "x"], VNone)].
Proof.
  exists (fun _ _ _ => false), (mkSeries 2 2 [([VStr "a"; VStr "x"], VBool true); ([VStr "a"; VStr "y"], VBool false); ([VStr "b"; VStr "x"], VNone)]).
  assert (forall k, forallb (fun p => negb (is_span p)) (parts_of k) = true -> List.length (parts_of k) <= 2 ->
    forall rows, proper (mkSeries 2 2 rows) k) as H.
  { intros k Hk Hl rows. split; auto. change (match k with One q => [q] | Tuple l => l end) with (parts_of k). intros i a b Hn.
    apply nth_error_In in Hn. rewrite forallb_forall in Hk. now apply Hk in Hn. }
  split; [| split; [apply H; [reflexivity | simpl; lia] | split; [apply H; [reflexivity | simpl; lia] | split; [apply H; [reflexivity | simpl; lia] | repeat split; reflexivity]]]].
  intros k v [E | [E | [E | []]]]; injection E as <- <-; reflexivity.
Qed.
