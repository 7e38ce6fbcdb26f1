(** * The command line: which words mean which options. *)
From Coq Require Import Bool List String Ascii Arith Lia.
From Verif Require Import Main MainFacts.
Import ListNotations.
Local Open Scope string_scope.
Local Open Scope list_scope.

(** The options that take a value: letter, name. *)
Definition valued : list (ascii * string * okey) :=
  [("i"%char, "input", KInput); ("o"%char, "output", KOutput); ("f"%char, "foresta", KForesta); ("e"%char, "errors", KErrors)].

Fixpoint hs (n : nat) : string := match n with 0 => "" | S n => String "h" (hs n) end.

(** [p] is a name, possibly cut short. *)
Definition abbreviates (p name : string) : Prop := p <> "" /\ exists q, name = (p ++ q)%string.

(** [reads argv opts rest]: the words [argv] stand for the options [opts], and [rest] is left over. *)
Inductive reads : list string -> list (okey * string) -> list string -> Prop :=
| rd_done : reads [] [] []
| rd_word : forall a rest, a = "" \/ a = "-" \/ (exists c s, a = String c s /\ c <> "-"%char) -> reads (a :: rest) [] (a :: rest)
| rd_end : forall rest, reads ("--" :: rest) [] rest
| rd_help : forall n rest l x, 0 < n -> reads rest l x -> reads (String "-" (hs n) :: rest) (repeat (KHelp, "") n ++ l) x
| rd_joined : forall n c name k v rest l x, In (c, name, k) valued -> v <> "" -> reads rest l x ->
    reads (String "-" (hs n ++ String c v)%string :: rest) (repeat (KHelp, "") n ++ (k, v) :: l) x
| rd_apart : forall n c name k v rest l x, In (c, name, k) valued -> reads rest l x ->
    reads (String "-" (hs n ++ String c "")%string :: v :: rest) (repeat (KHelp, "") n ++ (k, v) :: l) x
| rd_long_help : forall p rest l x, abbreviates p "help" -> reads rest l x -> reads (("--" ++ p)%string :: rest) ((KHelp, "") :: l) x
| rd_long_joined : forall p c name k v rest l x, In (c, name, k) valued -> abbreviates p name -> reads rest l x ->
    reads (("--" ++ p ++ "=" ++ v)%string :: rest) ((k, v) :: l) x
| rd_long_apart : forall p c name k v rest l x, In (c, name, k) valued -> abbreviates p name -> reads rest l x ->
    reads (("--" ++ p)%string :: v :: rest) ((k, v) :: l) x.

Lemma valued_inv : forall c name k, In (c, name, k) valued ->
  (c = "i"%char /\ name = "input" /\ k = KInput) \/ (c = "o"%char /\ name = "output" /\ k = KOutput) \/
  (c = "f"%char /\ name = "foresta" /\ k = KForesta) \/ (c = "e"%char /\ name = "errors" /\ k = KErrors).
Proof. intros c name k H. destruct H as [H | [H | [H | [H | []]]]]; injection H as <- <- <-; auto 10. Qed.

Lemma valued_short : forall c name k, In (c, name, k) valued -> short_key c = Some k /\ takes_arg k = true.
Proof.
  intros c name k H. apply valued_inv in H as [(-> & -> & ->) | [(-> & -> & ->) | [(-> & -> & ->) | (-> & -> & ->)]]]; split; reflexivity.
Qed.

Lemma short_valued : forall c k, short_key c = Some k -> (c = "h"%char /\ k = KHelp) \/ (takes_arg k = true /\ exists name, In (c, name, k) valued).
Proof.
  intros c k H. unfold short_key in H.
  destruct (Ascii.eqb_spec c "h"); [injection H as <-; auto |].
  destruct (Ascii.eqb_spec c "i"); [injection H as <-; subst; right; split; [reflexivity | exists "input"; simpl; auto] |].
  destruct (Ascii.eqb_spec c "o"); [injection H as <-; subst; right; split; [reflexivity | exists "output"; simpl; auto] |].
  destruct (Ascii.eqb_spec c "f"); [injection H as <-; subst; right; split; [reflexivity | exists "foresta"; simpl; auto] |].
  destruct (Ascii.eqb_spec c "e"); [injection H as <-; subst; right; split; [reflexivity | exists "errors"; simpl; auto] |].
  discriminate.
Qed.

(** ** Clusters of letters *)

Lemma shorts_help : forall n s, shorts (hs n ++ s)%string =
  match shorts s with Some (l, p) => Some (repeat (KHelp, "") n ++ l, p) | None => None end.
Proof.
  induction n as [| n IH]; intros s; cbn [hs append repeat].
  - destruct (shorts s) as [[l p] |]; reflexivity.
  - cbn [shorts short_key Ascii.eqb Bool.eqb takes_arg]. rewrite IH. destruct (shorts s) as [[l p] |]; reflexivity.
Qed.

Lemma shorts_inv : forall s l p, shorts s = Some (l, p) -> exists n,
  (s = hs n /\ l = repeat (KHelp, "") n /\ p = None) \/
  (exists c name k v, In (c, name, k) valued /\ v <> "" /\ s = (hs n ++ String c v)%string /\ l = repeat (KHelp, "") n ++ [(k, v)] /\ p = None) \/
  (exists c name k, In (c, name, k) valued /\ s = (hs n ++ String c "")%string /\ l = repeat (KHelp, "") n /\ p = Some k).
Proof.
  induction s as [| c s IH]; intros l p H; cbn [shorts] in H.
  - injection H as <- <-. exists 0. left. auto.
  - destruct (short_key c) as [k |] eqn:Ek; [| discriminate]. apply short_valued in Ek as [[-> ->] | (Ht & name & Hin)].
    + cbn [takes_arg] in H. destruct (shorts s) as [[l' p'] |]; [| discriminate]. injection H as <- <-.
      destruct (IH l' p' eq_refl) as (n & [(-> & -> & ->) | [(c & name & k & v & A & B & -> & -> & ->) | (c & name & k & A & -> & -> & ->)]]);
        exists (S n); [left; auto | right; left; exists c, name, k, v; auto | right; right; exists c, name, k; auto].
    + rewrite Ht in H. exists 0. destruct s as [| c' s]; injection H as <- <-.
      * right. right. exists c, name, k. auto.
      * right. left. exists c, name, k, (String c' s). repeat split; auto. discriminate.
Qed.

(** ** Long names *)

Lemma prefix_app : forall p s, String.prefix p s = true -> exists q, s = (p ++ q)%string.
Proof.
  induction p as [| c p IH]; intros s H; cbn [String.prefix append] in *.
  - eauto.
  - destruct s as [| d s]; [discriminate |]. cbn in H. destruct (ascii_dec c d) as [-> |]; [| discriminate].
    apply IH in H as (q & ->). exists q. reflexivity.
Qed.

Lemma long_key_inv : forall p k, long_key p = Some k ->
  (abbreviates p "help" /\ k = KHelp) \/ (takes_arg k = true /\ exists c name, In (c, name, k) valued /\ abbreviates p name).
Proof.
  intros p k H. assert (p <> "") as Hp by (intros ->; vm_compute in H; discriminate). unfold long_key in H.
  assert (exists nk, In nk long_names /\ k = snd nk /\ exists q, fst nk = (p ++ q)%string) as ([name k'] & Hin & -> & Hq).
  { destruct (find _ long_names) as [nk |] eqn:E.
    - apply find_some in E as [A B]. apply String.eqb_eq in B. injection H as <-. exists nk. split; auto. split; auto. exists "".
      rewrite B. clear. induction p as [| c p IH]; simpl; [auto | now rewrite <- IH].
    - destruct (filter _ long_names) as [| nk [|]] eqn:F; try discriminate. injection H as <-. exists nk.
      assert (In nk (filter (fun nk : string * okey => prefix p (fst nk)) long_names)) as A by (rewrite F; now left).
      apply filter_In in A as [A B]. split; auto. split; auto. now apply prefix_app. }
  cbn [fst snd] in *. destruct Hin as [E | [E | [E | [E | [E | []]]]]]; injection E as <- <-.
  - left. split; auto. split; auto.
  - right. split; auto. exists "i"%char, "input". split; [simpl; auto | split; auto].
  - right. split; auto. exists "o"%char, "output". split; [simpl; auto | split; auto].
  - right. split; auto. exists "f"%char, "foresta". split; [simpl; auto | split; auto].
  - right. split; auto. exists "e"%char, "errors". split; [simpl; auto 6 | split; auto].
Qed.

Ltac peel := repeat match goal with
  | H : String _ _ = (?p ++ _)%string |- _ => destruct p as [| ? p]; cbn [append] in H; [clear H | injection H as <- H]
  | H : "" = (?p ++ _)%string |- _ => destruct p as [| ? p]; cbn [append] in H; [clear H | discriminate H]
  end.

Lemma help_longs : forall p, abbreviates p "help" -> longs p = Some ([(KHelp, "")], None).
Proof. intros p (Hp & q & E). peel; try congruence; reflexivity. Qed.

Lemma valued_longs : forall p c name k, In (c, name, k) valued -> abbreviates p name ->
  longs p = Some ([], Some k) /\ forall v, longs (p ++ "=" ++ v)%string = Some ([(k, v)], None).
Proof.
  intros p c name k H (Hp & q & E).
  apply valued_inv in H as [(-> & -> & ->) | [(-> & -> & ->) | [(-> & -> & ->) | (-> & -> & ->)]]]; peel; try congruence; split; reflexivity.
Qed.

Lemma split_eq_inv : forall s name v, split_eq s = (name, v) ->
  match v with None => s = name | Some v => s = (name ++ "=" ++ v)%string end.
Proof.
  induction s as [| c s IH]; intros name v H; cbn [split_eq] in H.
  - injection H as <- <-. reflexivity.
  - destruct (Ascii.eqb_spec c "=") as [-> | Hc].
    + injection H as <- <-. reflexivity.
    + destruct (split_eq s) as [a b]. injection H as <- <-. specialize (IH a b eq_refl). destruct b; now rewrite IH.
Qed.

Lemma longs_inv : forall s l p, longs s = Some (l, p) ->
  (abbreviates s "help" /\ l = [(KHelp, "")] /\ p = None) \/
  (exists q c name k v, In (c, name, k) valued /\ abbreviates q name /\ s = (q ++ "=" ++ v)%string /\ l = [(k, v)] /\ p = None) \/
  (exists c name k, In (c, name, k) valued /\ abbreviates s name /\ l = [] /\ p = Some k).
Proof.
  intros s l p H. unfold longs in H. destruct (split_eq s) as [q v] eqn:E. apply split_eq_inv in E.
  destruct (long_key q) as [k |] eqn:K; [| discriminate].
  apply long_key_inv in K as [(A & ->) | (Ht & c & name & A & B)].
  - cbn [takes_arg] in H. destruct v; [discriminate |]. injection H as <- <-. subst. auto.
  - rewrite Ht in H. destruct v as [v |]; injection H as <- <-; subst.
    + right. left. exists q, c, name, k, v. auto.
    + right. right. exists c, name, k. auto.
Qed.

(** ** The loop *)

Lemma classify_short : forall s, s <> "" -> (forall s', s <> String "-" s') -> classify (String "-" s) = WOpt (shorts s).
Proof.
  intros [| c s] H1 H2; [congruence |]. unfold classify. rewrite Ascii.eqb_refl. destruct (Ascii.eqb_spec c "-"); [| reflexivity].
  subst. now destruct (H2 s).
Qed.

Lemma classify_long : forall s, s <> "" -> classify ("--" ++ s) = WOpt (longs s).
Proof. intros [| c s] H; [congruence | reflexivity]. Qed.

Lemma cluster_ok : forall n c s, c <> "-"%char -> (hs n ++ String c s)%string <> "" /\ forall s', (hs n ++ String c s)%string <> String "-" s'.
Proof. intros [| n] c s H; split; try discriminate. cbn. intros s' E. congruence. Qed.

Lemma valued_dash : forall c name k, In (c, name, k) valued -> c <> "-"%char.
Proof. intros c name k H. apply valued_inv in H as [(-> & _) | [(-> & _) | [(-> & _) | (-> & _)]]]; discriminate. Qed.

Lemma app_empty_string : forall s, (s ++ "")%string = s.
Proof. induction s as [| c s IH]; simpl; [auto | now rewrite IH]. Qed.

Theorem reads_getopt : forall argv opts rest, reads argv opts rest -> getopt argv = Some (opts, rest).
Proof.
  intros argv opts rest H.
  induction H as [| a rest Ha | rest | n rest l x Hn H IH | n c name k v rest l x Hin Hv H IH | n c name k v rest l x Hin H IH
    | p rest l x Hp H IH | p c name k v rest l x Hin Hp H IH | p c name k v rest l x Hin Hp H IH].
  - reflexivity.
  - cbn [getopt]. assert (classify a = WPlain) as ->; [| reflexivity].
    destruct Ha as [-> | [-> | (c & s & -> & Hc)]]; try reflexivity. unfold classify. destruct (Ascii.eqb_spec c "-"); congruence.
  - reflexivity.
  - cbn [getopt]. rewrite classify_short.
    + rewrite <- (app_empty_string (hs n)), shorts_help. cbn [shorts]. now rewrite IH, app_nil_r.
    + destruct n; [lia | discriminate].
    + destruct n; [lia | discriminate].
  - cbn [getopt]. pose proof (cluster_ok n c v (valued_dash _ _ _ Hin)) as [C1 C2]. rewrite classify_short by auto. rewrite shorts_help.
    apply valued_short in Hin as [K T]. cbn [shorts]. rewrite K, T. destruct v as [| c' v]; [congruence |]. now rewrite IH, <- app_assoc.
  - cbn [getopt]. pose proof (cluster_ok n c "" (valued_dash _ _ _ Hin)) as [C1 C2]. rewrite classify_short by auto. rewrite shorts_help.
    apply valued_short in Hin as [K T]. cbn [shorts]. rewrite K, T. now rewrite IH, app_nil_r.
  - cbn [getopt]. rewrite classify_long by apply Hp. rewrite help_longs by auto. now rewrite IH.
  - cbn [getopt]. rewrite classify_long.
    + destruct (valued_longs p c name k Hin Hp) as [_ ->]. now rewrite IH.
    + destruct Hp as [Hp _]. destruct p; [congruence | discriminate].
  - cbn [getopt]. rewrite classify_long by apply Hp. destruct (valued_longs p c name k Hin Hp) as [-> _]. now rewrite IH.
Qed.

Theorem getopt_reads : forall argv opts rest, getopt argv = Some (opts, rest) -> reads argv opts rest.
Proof.
  intros argv. remember (List.length argv) as n eqn:En. assert (List.length argv <= n) as Hn by lia. clear En.
  revert argv Hn. induction n as [| n IH]; intros argv Hn opts rest H.
  - destruct argv; [| simpl in Hn; lia]. cbn in H. injection H as <- <-. constructor.
  - destruct argv as [| a more]; [cbn in H; injection H as <- <-; constructor |]. cbn [List.length] in Hn. cbn [getopt] in H.
    assert (forall l r, getopt more = Some (l, r) -> reads more l r) as IH1 by (intros; apply IH; auto; lia).
    assert (forall b more' l r, more = b :: more' -> getopt more' = Some (l, r) -> reads more' l r) as IH2.
    { intros b more' l r -> E. apply IH; auto. cbn [List.length] in Hn. lia. }
    destruct a as [| c s]; [cbn in H; injection H as <- <-; constructor; auto |].
    unfold classify in H. destruct (Ascii.eqb_spec c "-") as [-> | Hc]; [| injection H as <- <-; constructor; right; right; eauto].
    destruct s as [| c2 s]; [injection H as <- <-; constructor; auto |].
    destruct (Ascii.eqb_spec c2 "-") as [-> | Hc2].
    + destruct s as [| c3 s]; [injection H as <- <-; constructor |].
      remember (String c3 s) as w eqn:Ew. change (String "-" (String "-" w)) with ("--" ++ w)%string.
      destruct (longs w) as [[l p] |] eqn:El; [| discriminate].
      apply longs_inv in El as [(A & -> & ->) | [(q & c & name & k & v & A & B & Eq & -> & ->) | (c & name & k & A & B & -> & ->)]].
      * destruct (getopt more) as [[l' r] |]; [| discriminate]. injection H as <- <-. apply rd_long_help; auto.
      * destruct (getopt more) as [[l' r] |]; [| discriminate]. injection H as <- <-. rewrite Eq. eapply rd_long_joined; eauto.
      * destruct more as [| b more']; [discriminate |]. destruct (getopt more') as [[l' r] |] eqn:Eg; [| discriminate]. injection H as <- <-.
        eapply rd_long_apart; eauto.
    + remember (String c2 s) as w eqn:Ew. assert (w <> "") as Hw by (rewrite Ew; discriminate).
      destruct (shorts w) as [[l p] |] eqn:El; [| discriminate]. clear Ew.
      apply shorts_inv in El as (m & [(-> & -> & ->) | [(c & name & k & v & A & B & -> & -> & ->) | (c & name & k & A & -> & -> & ->)]]).
      * destruct (getopt more) as [[l' r] |]; [| discriminate]. injection H as <- <-. apply rd_help; auto. destruct m; [now destruct Hw | lia].
      * destruct (getopt more) as [[l' r] |]; [| discriminate]. injection H as <- <-. rewrite <- app_assoc. eapply rd_joined; eauto.
      * destruct more as [| b more']; [discriminate |]. destruct (getopt more') as [[l' r] |] eqn:Eg; [| discriminate]. injection H as <- <-.
        eapply rd_apart; eauto.
Qed.

Theorem getopt_exact : forall argv opts rest, getopt argv = Some (opts, rest) <-> reads argv opts rest.
Proof. split; [apply getopt_reads | apply reads_getopt]. Qed.
