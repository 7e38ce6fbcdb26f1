(** * ampl_format: specification and correctness. *)
From Coq Require Import Bool List String Ascii Arith Lia.
From Verif Require Import InfIO Ampl.
Import ListNotations.
Arguments Ascii.eqb : simpl nomatch.

(** ** Specification: templates *)

(** A template is a sequence of ordinary characters, single braces and
    placeholders. *)
Inductive item : Type := Ch (c : ascii) | LB | RB | Ph (name : text).

Definition no_brace (c : ascii) : Prop := c <> lbrace /\ c <> rbrace.

Definition item_ok (i : item) : Prop :=
  match i with Ch c => no_brace c | LB | RB => True | Ph n => forall c, In c n -> no_brace c end.

(** What the user writes. *)
Definition written (i : item) : text :=
  match i with Ch c => [c] | LB => [lbrace] | RB => [rbrace] | Ph n => lbrace :: lbrace :: n ++ [rbrace; rbrace] end.
Definition render (its : list item) : text := flat_map written its.

(** What they should get. *)
Fixpoint expected (subst : text -> option text) (its : list item) : outcome text :=
  match its with
  | [] => Ret []
  | i :: its' =>
      match match i with Ch c => Some [c] | LB => Some [lbrace] | RB => Some [rbrace] | Ph n => subst n end,
            expected subst its' with
      | Some s, Ret r => Ret (s ++ r)
      | _, _ => Raise
      end
  end.

(** Single braces never stand beside one another: [{{] could not be told from a
    placeholder. *)
Definition lone (its : list item) : Prop :=
  forall pre post, its <> pre ++ LB :: LB :: post /\ its <> pre ++ RB :: RB :: post.

(** ** Tokens *)

Inductive tok : Type := C (c : ascii) | L | R | LL | RR.

(** How the four brace tokens are currently spelled. *)
Record ren : Type := mkRen { vL : text; vR : text; vLL : text; vRR : text }.
Definition spell (r : ren) (t : tok) : text :=
  match t with C c => [c] | L => vL r | R => vR r | LL => vLL r | RR => vRR r end.
Definition flat (r : ren) (ts : list tok) : text := flat_map (spell r) ts.

Definition tok_ok (t : tok) : Prop := match t with C c => no_brace c | _ => True end.
Definition next_ok (t : tok) (ts : list tok) : Prop :=
  match t, ts with
  | L, L :: _ | L, LL :: _ | R, R :: _ | R, RR :: _ => False
  | _, _ => True
  end.
Fixpoint adj (ts : list tok) : Prop :=
  match ts with [] => True | t :: ts' => tok_ok t /\ next_ok t ts' /\ adj ts' end.

(** ** Replacing *)

Lemma replace_skip : forall old new p s, replace_from old new (p ++ s) (List.length p) = replace_from old new s 0.
Proof. intros old new. induction p as [| c p IH]; intros s; simpl; auto. Qed.

Lemma starts_app : forall p s, starts p (p ++ s) = true.
Proof. induction p as [| c p IH]; intros s; simpl; auto. now rewrite Ascii.eqb_refl, IH. Qed.

Lemma replace_match : forall old new s, old <> [] -> replace old new (old ++ s) = new ++ replace old new s.
Proof.
  intros old new s H. destruct old as [| c old]; [congruence |]. unfold replace.
  change ((c :: old) ++ s) with (c :: (old ++ s)). cbn [replace_from].
  change (c :: old ++ s) with ((c :: old) ++ s). rewrite starts_app. f_equal.
  replace (List.length (c :: old) - 1) with (List.length old) by (simpl; lia). apply replace_skip.
Qed.

Fixpoint clear (old p s : text) : bool :=
  match p with [] => true | _ :: p' => negb (starts old (p ++ s)) && clear old p' s end.

Lemma replace_pass : forall old new p s, clear old p s = true -> replace old new (p ++ s) = p ++ replace old new s.
Proof.
  intros old new. induction p as [| c p IH]; intros s H; auto. cbn [clear] in H.
  apply andb_prop in H as [H1 H2]. apply negb_true_iff in H1. unfold replace in *.
  change ((c :: p) ++ s) with (c :: (p ++ s)) in *. cbn [replace_from]. rewrite H1. rewrite IH; auto.
Qed.

Lemma clear_app : forall old p q s, clear old (p ++ q) s = clear old p (q ++ s) && clear old q s.
Proof.
  intros old. induction p as [| c p IH]; intros q s; auto. cbn [clear app]. rewrite IH.
  rewrite <- andb_assoc. do 2 f_equal. now rewrite <- app_assoc.
Qed.

(** One replacement changes the spelling of one token. *)
Lemma replace_flat : forall old new r r' (sel : tok -> bool) ts, old <> [] ->
  (forall t, sel t = true -> spell r t = old /\ spell r' t = new) ->
  (forall t, sel t = false -> spell r' t = spell r t) ->
  (forall pre t ts', ts = pre ++ t :: ts' -> sel t = false -> clear old (spell r t) (flat r ts') = true) ->
  replace old new (flat r ts) = flat r' ts.
Proof.
  intros old new r r' sel ts Ho Hs Hn. induction ts as [| t ts IH]; intros Hc.
  - simpl. reflexivity.
  - unfold flat. simpl. fold (flat r ts) (flat r' ts).
    assert (replace old new (flat r ts) = flat r' ts) as IH'.
    { apply IH. intros pre t' ts' E. apply (Hc (t :: pre)). simpl. now rewrite E. }
    destruct (sel t) eqn:E.
    + destruct (Hs t E) as [-> ->]. rewrite replace_match by auto. now rewrite IH'.
    + rewrite Hn by auto. rewrite replace_pass, IH'; auto. apply (Hc [] t ts eq_refl E).
Qed.

Lemma adj_app : forall pre ts, adj (pre ++ ts) -> adj ts.
Proof. induction pre as [| t pre IH]; simpl; auto. intros ts (_ & _ & H). auto. Qed.

Definition isLL (t : tok) := match t with LL => true | _ => false end.
Definition isRR (t : tok) := match t with RR => true | _ => false end.
Definition isL (t : tok) := match t with L => true | _ => false end.
Definition isR (t : tok) := match t with R => true | _ => false end.

Definition ren0 := mkRen (txt "{") (txt "}") (txt "{{") (txt "}}").
Definition ren1 := mkRen (txt "{") (txt "}") left_mark (txt "}}").
Definition ren2 := mkRen (txt "{") (txt "}") left_mark right_mark.
Definition ren3 := mkRen (txt "{{") (txt "}") left_mark right_mark.
Definition ren4 := mkRen (txt "{{") (txt "}}") left_mark right_mark.
Definition ren5 := mkRen (txt "{{") (txt "}}") (txt "{") right_mark.
Definition ren6 := mkRen (txt "{{") (txt "}}") (txt "{") (txt "}").

Lemma eqb_brace : forall c, no_brace c -> Ascii.eqb lbrace c = false /\ Ascii.eqb rbrace c = false /\
  Ascii.eqb c lbrace = false /\ Ascii.eqb c rbrace = false.
Proof. intros c [H1 H2]. repeat split; apply Ascii.eqb_neq; congruence. Qed.

Lemma starts_brace : forall b p c s, Ascii.eqb b c = false -> starts (b :: p) (c :: s) = false.
Proof. intros b p c s H. simpl. now rewrite H. Qed.

Lemma step1 : forall ts, adj ts -> replace (txt "{{") left_mark (flat ren0 ts) = flat ren1 ts.
Proof.
  intros ts Ha. apply (replace_flat _ _ _ _ isLL); try discriminate.
  - intros [] H; try discriminate; auto.
  - intros [] H; try discriminate; auto.
  - intros pre t ts' E Hs. subst ts. apply adj_app in Ha. destruct Ha as (Hok & Hn & Ha').
    destruct t as [c | | | |]; try discriminate Hs; try reflexivity.
    + apply eqb_brace in Hok as (H1 & _). cbn [spell clear app]. change (txt "{{") with [lbrace; lbrace].
      now rewrite starts_brace.
    + destruct ts' as [| [c | | | |] ts']; simpl in Hn; try tauto; try reflexivity.
      destruct Ha' as (Hok' & _). apply eqb_brace in Hok' as (H1 & _).
      change (flat ren0 (C c :: ts')) with (c :: flat ren0 ts'). cbn [spell vL ren0 clear app].
      change (txt "{{") with [lbrace; lbrace]. change (txt "{") with [lbrace]. cbn [clear app].
      change (starts [lbrace; lbrace] (lbrace :: c :: flat ren0 ts')) with (Ascii.eqb lbrace c && true).
      now rewrite H1.
Qed.

Lemma step2 : forall ts, adj ts -> replace (txt "}}") right_mark (flat ren1 ts) = flat ren2 ts.
Proof.
  intros ts Ha. apply (replace_flat _ _ _ _ isRR); try discriminate.
  - intros [] H; try discriminate; auto.
  - intros [] H; try discriminate; auto.
  - intros pre t ts' E Hs. subst ts. apply adj_app in Ha. destruct Ha as (Hok & Hn & Ha').
    destruct t as [c | | | |]; try discriminate Hs; try reflexivity.
    + apply eqb_brace in Hok as (_ & H1 & _). cbn [spell clear app]. change (txt "}}") with [rbrace; rbrace].
      now rewrite starts_brace.
    + destruct ts' as [| [c | | | |] ts']; simpl in Hn; try tauto; try reflexivity.
      destruct Ha' as (Hok' & _). apply eqb_brace in Hok' as (_ & H1 & _).
      change (flat ren1 (C c :: ts')) with (c :: flat ren1 ts').
      change (spell ren1 R) with [rbrace]. change (txt "}}") with [rbrace; rbrace]. cbn [clear app].
      change (starts [rbrace; rbrace] (rbrace :: c :: flat ren1 ts')) with (Ascii.eqb rbrace c && true).
      now rewrite H1.
Qed.

Lemma step3 : forall ts, adj ts -> replace (txt "{") (txt "{{") (flat ren2 ts) = flat ren3 ts.
Proof.
  intros ts Ha. apply (replace_flat _ _ _ _ isL); try discriminate.
  - intros [] H; try discriminate; auto.
  - intros [] H; try discriminate; auto.
  - intros pre t ts' E Hs. subst ts. apply adj_app in Ha. destruct Ha as (Hok & Hn & Ha').
    destruct t as [c | | | |]; try discriminate Hs; try reflexivity.
    apply eqb_brace in Hok as (H1 & _). cbn [spell clear app]. change (txt "{") with [lbrace]. now rewrite starts_brace.
Qed.

Lemma step4 : forall ts, adj ts -> replace (txt "}") (txt "}}") (flat ren3 ts) = flat ren4 ts.
Proof.
  intros ts Ha. apply (replace_flat _ _ _ _ isR); try discriminate.
  - intros [] H; try discriminate; auto.
  - intros [] H; try discriminate; auto.
  - intros pre t ts' E Hs. subst ts. apply adj_app in Ha. destruct Ha as (Hok & Hn & Ha').
    destruct t as [c | | | |]; try discriminate Hs; try reflexivity.
    apply eqb_brace in Hok as (_ & H1 & _). cbn [spell clear app]. change (txt "}") with [rbrace]. now rewrite starts_brace.
Qed.

(** ** The markers *)

Definition key_left : text := txt "ticdat_ampl_format_[".
Definition key_right : text := txt "ticdat_ampl_format_]".

(** No suffix of [k] can start with the text [X]. *)
Fixpoint blocked (k X : text) : Prop :=
  match k with [] => True | _ :: k' => (forall s, starts k (X ++ s) = false) /\ blocked k' X end.

Lemma key_real : forall r k ts, k <> [] -> (forall t, match t with C _ => True | _ => blocked k (spell r t) end) ->
  starts k (flat r ts) = true -> starts k (flat ren0 ts) = true.
Proof.
  intros r. induction k as [| a k IH]; intros ts Hk Hb H; [congruence |].
  destruct ts as [| [c | | | |] ts]; try discriminate.
  - change (flat r (C c :: ts)) with (c :: flat r ts) in H. change (flat ren0 (C c :: ts)) with (c :: flat ren0 ts).
    cbn [starts] in *. apply andb_prop in H as [H1 H2]. rewrite H1. simpl.
    destruct k as [| b k]; auto. apply IH; auto; [discriminate |].
    intros t. specialize (Hb t). destruct t; auto; apply Hb.
  - specialize (Hb L). destruct Hb as [Hb _]. change (flat r (L :: ts)) with (spell r L ++ flat r ts) in H. congruence.
  - specialize (Hb R). destruct Hb as [Hb _]. change (flat r (R :: ts)) with (spell r R ++ flat r ts) in H. congruence.
  - specialize (Hb LL). destruct Hb as [Hb _]. change (flat r (LL :: ts)) with (spell r LL ++ flat r ts) in H. congruence.
  - specialize (Hb RR). destruct Hb as [Hb _]. change (flat r (RR :: ts)) with (spell r RR ++ flat r ts) in H. congruence.
Qed.

Lemma starts_snoc : forall k a s, starts (k ++ [a]) s = true -> starts k s = true.
Proof.
  induction k as [| b k IH]; intros a s H; auto. destruct s as [| c s]; [discriminate |].
  simpl in *. apply andb_prop in H as [H1 H2]. rewrite H1. simpl. eauto.
Qed.

Lemma contains_app : forall k p s, contains k (p ++ s) = false -> starts k s = false.
Proof.
  induction p as [| c p IH]; intros s H.
  - destruct s as [| c s]; simpl in *; [now rewrite orb_false_r in H | now apply orb_false_iff in H as [H _]].
  - simpl in H. apply orb_false_iff in H as [_ H]. auto.
Qed.

Lemma flat_app : forall r a b, flat r (a ++ b) = flat r a ++ flat r b.
Proof. intros. unfold flat. apply flat_map_app. Qed.

Lemma mark_clear : forall m k r ts' pre t, m = ("_"%char :: k ++ ["_"%char]) -> k <> [] ->
  (forall t, match t with C _ => True | _ => blocked k (spell r t) end) ->
  contains k (flat ren0 (pre ++ t :: ts')) = false ->
  forall c, starts m (c :: flat r ts') = false.
Proof.
  intros m k r ts' pre t -> Hk Hb Hc c. apply not_true_is_false. intros H.
  cbn [starts] in H. apply andb_prop in H as [_ H]. apply starts_snoc in H. apply key_real in H; auto.
  change (t :: ts') with ([t] ++ ts') in Hc. rewrite !flat_app, app_assoc in Hc.
  apply contains_app in Hc. congruence.
Qed.

Ltac solve_blocked := cbn; repeat (split; [intros; reflexivity |]); exact I.

Lemma blocked4 : forall t, match t with C _ => True | _ => blocked key_left (spell ren4 t) end.
Proof. intros [c | | | |]; [exact I | ..]; solve_blocked. Qed.
Lemma blocked5 : forall t, match t with C _ => True | _ => blocked key_right (spell ren5 t) end.
Proof. intros [c | | | |]; [exact I | ..]; solve_blocked. Qed.

Lemma step5 : forall ts, contains key_left (flat ren0 ts) = false ->
  replace left_mark (txt "{") (flat ren4 ts) = flat ren5 ts.
Proof.
  intros ts Hk. apply (replace_flat _ _ _ _ isLL); try discriminate.
  - intros [] H; try discriminate; auto.
  - intros [] H; try discriminate; auto.
  - intros pre t ts' E Hs. subst ts.
    assert (forall c, starts left_mark (c :: flat ren4 ts') = false) as Hm.
    { eapply (mark_clear left_mark key_left); eauto; [discriminate | apply blocked4]. }
    destruct t as [c | | | |]; try discriminate Hs; try reflexivity.
    + cbn [spell clear app]. now rewrite Hm.
    + change (spell ren4 RR) with (txt "_ticdat_ampl_format_]" ++ ["_"%char]).
      rewrite clear_app. apply andb_true_intro. split; [reflexivity |]. cbn [clear app]. now rewrite Hm.
Qed.

Lemma step6 : forall ts, contains key_right (flat ren0 ts) = false ->
  replace right_mark (txt "}") (flat ren5 ts) = flat ren6 ts.
Proof.
  intros ts Hk. apply (replace_flat _ _ _ _ isRR); try discriminate.
  - intros [] H; try discriminate; auto.
  - intros [] H; try discriminate; auto.
  - intros pre t ts' E Hs. subst ts.
    assert (forall c, starts right_mark (c :: flat ren5 ts') = false) as Hm.
    { eapply (mark_clear right_mark key_right); eauto; [discriminate | apply blocked5]. }
    destruct t as [c | | | |]; try discriminate Hs; try reflexivity.
    cbn [spell clear app]. now rewrite Hm.
Qed.

(** ** Templates as tokens *)

Fixpoint toks (its : list item) : list tok :=
  match its with
  | [] => []
  | Ch c :: r => C c :: toks r
  | RB :: r => R :: toks r
  | Ph n :: r => LL :: map C n ++ RR :: toks r
  | LB :: r => match r with
               | Ph n :: r' => LL :: L :: map C n ++ RR :: toks r'
               | _ => L :: toks r
               end
  end.

Definition final (i : item) : text :=
  match i with Ch c => [c] | LB => txt "{{" | RB => txt "}}" | Ph n => txt "{" ++ n ++ txt "}" end.

Lemma flat_chars : forall r n, flat r (map C n) = n.
Proof. intros r. induction n as [| c n IH]; simpl; auto. unfold flat in *. simpl. now f_equal. Qed.

Lemma items_ind : forall P : list item -> Prop, P [] ->
  (forall i r, P r -> (forall n r', r = Ph n :: r' -> P r') -> P (i :: r)) -> forall its, P its.
Proof.
  intros P H0 Hs its. enough (P its /\ forall n r', its = Ph n :: r' -> P r') by tauto.
  induction its as [| i its [IH1 IH2]].
  - split; auto. discriminate.
  - split; auto. intros n r' E. injection E as _ <-. auto.
Qed.

Lemma flat_cons : forall r t ts, flat r (t :: ts) = spell r t ++ flat r ts.
Proof. reflexivity. Qed.

Lemma toks_spell : forall r its (w : item -> text),
  (forall c, w (Ch c) = [c]) -> w LB = vL r -> w RB = vR r ->
  (forall n, w (Ph n) = vLL r ++ n ++ vRR r) -> vLL r ++ vL r = vL r ++ vLL r ->
  flat r (toks its) = flat_map w its.
Proof.
  intros r its w H1 H2 H3 H4 H5. induction its as [| i its IH IH2] using items_ind; auto.
  assert (forall n ts, flat r (map C n ++ RR :: ts) = n ++ vRR r ++ flat r ts) as Hn.
  { intros n ts. now rewrite flat_app, flat_chars. }
  destruct i as [c | | | n]; cbn [flat_map].
  - cbn [toks]. rewrite flat_cons, IH, H1. reflexivity.
  - destruct its as [| [c | | | n] r'];
      try (change (toks (LB :: _)) with (L :: toks (@nil item)));
      try (cbn [toks]; rewrite flat_cons, H2; cbn [spell]; f_equal; exact IH).
    cbn [toks]. rewrite !flat_cons, Hn. cbn [spell flat_map].
    rewrite (IH2 n r' eq_refl), H2, H4. rewrite <- !app_assoc.
    rewrite (app_assoc (vLL r)), (app_assoc (vL r)). now rewrite H5.
  - cbn [toks]. rewrite flat_cons, IH, H3. reflexivity.
  - cbn [toks]. rewrite flat_cons, Hn, IH, H4. cbn [spell]. now rewrite <- !app_assoc.
Qed.

Lemma toks_written : forall its, flat ren0 (toks its) = render its.
Proof. intros its. apply toks_spell; auto. Qed.

Lemma toks_final : forall its, flat ren6 (toks its) = flat_map final its.
Proof. intros its. apply toks_spell; auto. Qed.

Lemma adj_chars : forall n ts, (forall c, In c n -> no_brace c) -> adj (RR :: ts) ->
  adj (map C n ++ RR :: ts).
Proof.
  induction n as [| c n IH]; intros ts Hn H; auto. cbn [map app adj]. split; [apply Hn; now left |]. split; [exact I |].
  apply IH; auto. intros c' Hc. apply Hn. now right.
Qed.

Lemma toks_adj : forall its, Forall item_ok its -> lone its -> adj (toks its).
Proof.
  intros its. induction its as [| i its IH IH2] using items_ind; intros Hok Hl; [exact I |].
  inversion Hok as [| x y Hi Hok']; subst.
  assert (lone its) as Hl'.
  { intros pre post. destruct (Hl (i :: pre) post) as [A B]. split; intros E; [apply A | apply B]; simpl; now rewrite E. }
  destruct i as [c | | | n]; cbn [toks].
  - cbn [adj]. repeat split; auto; apply Hi.
  - destruct its as [| [c | | | n] r'].
    + cbn. auto.
    + cbn [adj tok_ok]. split; [exact I |]. split; [exact I |]. auto.
    + exfalso. now apply (proj1 (Hl [] r')).
    + cbn [adj tok_ok]. split; [exact I |]. split; [exact I |]. auto.
    + inversion Hok' as [| x y Hn Hok'']; subst.
      assert (lone r') as Hl''.
      { intros pre post. destruct (Hl' (Ph n :: pre) post) as [A B]. split; intros E; [apply A | apply B]; simpl; now rewrite E. }
      pose proof (IH2 n r' eq_refl Hok'' Hl'') as Ha.
      cbn [adj tok_ok next_ok]. split; [exact I |]. split; [exact I |]. split; [exact I |]. split.
      * destruct n; exact I.
      * apply adj_chars; [exact Hn |]. cbn [adj]. split; [exact I |]. split; auto; now destruct (toks r').
  - cbn [adj tok_ok]. split; [exact I |]. split; auto.
    destruct its as [| [c | | | n] r']; simpl; auto.
    + destruct r' as [| [] ?]; exact I.
    + now apply (proj2 (Hl [] r')).
  - cbn [adj tok_ok next_ok]. split; [exact I |]. split; [now destruct (map C n ++ RR :: toks its) |].
    apply adj_chars; [exact Hi |]. cbn [adj tok_ok]. split; [exact I |]. split; auto; now destruct (toks its).
Qed.

(** ** Formatting *)

Section Fmt.
  Variable subst : text -> option text.

  Lemma format_field : forall n s acc, (forall c, In c n -> no_brace c) ->
    format subst (n ++ rbrace :: s) (Field 1 acc) =
    match subst (rev acc ++ n) with None => Raise | Some v => prepend v (format subst s Literal) end.
  Proof.
    induction n as [| c n IH]; intros s acc H.
    - rewrite app_nil_r. reflexivity.
    - destruct (eqb_brace c (H c (or_introl eq_refl))) as (_ & _ & E1 & E2).
      cbn [app format]. rewrite E1, E2. rewrite IH by (intros c' Hc; apply H; now right).
      simpl rev. now rewrite <- app_assoc.
  Qed.

  Lemma format_final : forall its, Forall item_ok its ->
    format subst (flat_map final its) Literal = expected subst its.
  Proof.
    induction its as [| i its IH]; intros Hok; auto. inversion Hok as [| x y Hi Hok']; subst. specialize (IH Hok').
    destruct i as [c | | | n]; cbn [flat_map expected].
    - destruct (eqb_brace c Hi) as (_ & _ & E1 & E2). cbn [final app format]. rewrite E1, E2, IH.
      now destruct (expected subst its).
    - change (format subst (final LB ++ flat_map final its) Literal) with (prepend [lbrace] (format subst (flat_map final its) Literal)).
      rewrite IH. now destruct (expected subst its).
    - change (format subst (final RB ++ flat_map final its) Literal) with (prepend [rbrace] (format subst (flat_map final its) Literal)).
      rewrite IH. now destruct (expected subst its).
    - assert (final (Ph n) ++ flat_map final its = lbrace :: n ++ rbrace :: flat_map final its) as ->.
      { cbn [final]. change (txt "{") with [lbrace]. change (txt "}") with [rbrace]. now rewrite <- !app_assoc. }
      assert (format subst (lbrace :: n ++ rbrace :: flat_map final its) Literal =
              format subst (n ++ rbrace :: flat_map final its) (Field 1 [])) as ->.
      { destruct n as [| c n]; [reflexivity |].
        destruct (eqb_brace c (Hi c (or_introl eq_refl))) as (_ & _ & E1 & E2).
        change (format subst (lbrace :: (c :: n) ++ rbrace :: flat_map final its) Literal) with
          (if Ascii.eqb c lbrace
           then prepend [lbrace] (format subst (n ++ rbrace :: flat_map final its) Literal)
           else format subst ((c :: n) ++ rbrace :: flat_map final its) (Field 1 [])).
        now rewrite E1. }
      rewrite format_field by exact Hi. simpl rev. cbn [app]. rewrite IH.
      destruct (subst n); auto; now destruct (expected subst its).
  Qed.

  Lemma contains_key : forall m k s, m = ("_"%char :: k ++ ["_"%char]) -> contains k s = false -> contains m s = false.
  Proof.
    intros m k s ->. induction s as [| c s IH]; intros H; auto. cbn [contains] in *.
    apply orb_false_iff in H as [H1 H2]. rewrite IH by auto. rewrite orb_false_r. apply not_true_is_false. intros E.
    cbn [starts] in E. apply andb_prop in E as [_ E]. apply starts_snoc in E.
    destruct s; simpl in H2; [rewrite orb_false_r in H2 | apply orb_false_iff in H2 as [H2 _]]; congruence.
  Qed.

  Theorem ampl_correct : forall its, Forall item_ok its -> lone its ->
    contains key_left (render its) = false -> contains key_right (render its) = false ->
    ampl_format subst (render its) = expected subst its.
  Proof.
    intros its Hok Hl H1 H2. unfold ampl_format.
    rewrite (contains_key left_mark key_left), (contains_key right_mark key_right) by auto. simpl orb. cbv iota.
    pose proof (toks_adj its Hok Hl) as Ha. rewrite <- (toks_written its) in *.
    rewrite step1, step2, step3, step4, step5, step6 by auto. rewrite toks_final. now apply format_final.
  Qed.
End Fmt.
