(** * Facts about the command line. *)
From Coq Require Import Bool List String Ascii Arith Lia.
From Verif Require Import Main.
Import ListNotations.
Local Open Scope string_scope.
Local Open Scope list_scope.

(** ** Endings *)

Lemma length_append : forall a b, String.length (a ++ b)%string = String.length a + String.length b.
Proof. induction a as [| c a IH]; intros b; simpl; auto. Qed.

Lemma substring_all : forall s, substring 0 (String.length s) s = s.
Proof. induction s as [| c s IH]; simpl; [reflexivity | now rewrite IH]. Qed.

Lemma substring_after : forall a b, substring (String.length a) (String.length b) (a ++ b)%string = b.
Proof. induction a as [| c a IH]; intros b; simpl; [apply substring_all | apply IH]. Qed.

Lemma substring_tail : forall s n, n <= String.length s ->
  s = (substring 0 n s ++ substring n (String.length s - n) s)%string.
Proof.
  induction s as [| c s IH]; intros n H; simpl in *.
  - destruct n; [reflexivity | lia].
  - destruct n as [| n]; simpl; [now rewrite substring_all |]. f_equal. apply IH. lia.
Qed.

Lemma ends_with_iff : forall e s, ends_with e s = true <-> exists b, s = (b ++ e)%string.
Proof.
  intros e s. unfold ends_with. split.
  - intros H. apply andb_prop in H as [H1 H2]. apply Nat.leb_le in H1. apply String.eqb_eq in H2.
    exists (substring 0 (String.length s - String.length e) s).
    rewrite (substring_tail s (String.length s - String.length e)) at 1 by lia.
    replace (String.length s - (String.length s - String.length e)) with (String.length e) by lia. now rewrite H2.
  - intros (b & ->). rewrite length_append. apply andb_true_intro. split; [apply Nat.leb_le; lia |].
    replace (String.length b + String.length e - String.length e) with (String.length b) by lia.
    rewrite substring_after. apply String.eqb_refl.
Qed.

Lemma append_split : forall a b c d, (a ++ b)%string = (c ++ d)%string ->
  (exists m, b = (m ++ d)%string) \/ (exists m, d = (m ++ b)%string).
Proof.
  induction a as [| x a IH]; intros b c d H; simpl in H.
  - left. exists c. exact H.
  - destruct c as [| y c]; simpl in H.
    + right. exists (String x a). now rewrite <- H.
    + injection H as _ H. now apply IH in H.
Qed.

(** Two endings of one path: one is an ending of the other. *)
Lemma two_endings : forall e e' p, ends_with e p = true -> ends_with e' p = true ->
  ends_with e e' = true \/ ends_with e' e = true.
Proof.
  intros e e' p H H'. apply ends_with_iff in H as (b & ->). apply ends_with_iff in H' as (b' & H').
  apply append_split in H' as [(m & Hm) | (m & Hm)].
  - right. apply ends_with_iff. eauto.
  - left. apply ends_with_iff. eauto.
Qed.

(** The documented endings (utils.py 450-464). *)
Definition documented (tic : bool) (p : string) (f : fmt) : Prop :=
  match f with
  | FXls => ends_with ".xls" p = true \/ ends_with ".xlsx" p = true
  | FMdb => tic = true /\ (ends_with ".mdb" p = true \/ ends_with ".accdb" p = true)
  | FDb => ends_with ".db" p = true
  | FSql => tic = true /\ ends_with ".sql" p = true
  | FJson => ends_with ".json" p = true
  | FCsv => ends_with ".xls" p = false /\ ends_with ".xlsx" p = false /\ ends_with ".db" p = false /\
            ends_with ".json" p = false /\
            (tic = true -> ends_with ".mdb" p = false /\ ends_with ".accdb" p = false /\ ends_with ".sql" p = false)
  end.

Ltac clash H H' := exfalso; destruct (two_endings _ _ _ H H') as [C | C]; vm_compute in C; discriminate C.

Ltac endings p :=
  let j := fresh "Ej" in let x := fresh "Ex" in let xx := fresh "Exx" in let d := fresh "Ed" in
  let q := fresh "Eq" in let m := fresh "Em" in let a := fresh "Ea" in
  destruct (ends_with ".json" p) eqn:j; destruct (ends_with ".xls" p) eqn:x;
  destruct (ends_with ".xlsx" p) eqn:xx; destruct (ends_with ".db" p) eqn:d;
  destruct (ends_with ".sql" p) eqn:q; destruct (ends_with ".mdb" p) eqn:m;
  destruct (ends_with ".accdb" p) eqn:a;
  try match goal with
  | H : ends_with ?e p = true, H' : ends_with ?e' p = true |- _ =>
      lazymatch e with e' => fail | _ => clash H H' end
  end.

Lemma writer_documented : forall tic p f, write_fmt tic (is_file tic p) p = Some f <-> documented tic p f.
Proof.
  intros tic p f. unfold write_fmt, is_file, recognized, last_fmt.
  destruct tic; simpl; endings p; simpl; split;
  try (intros H; injection H as <-; simpl; rewrite ?Ej, ?Ex, ?Exx, ?Ed, ?Eq, ?Em, ?Ea; repeat split; auto; intros; discriminate);
  try (destruct f; simpl; rewrite ?Ej, ?Ex, ?Exx, ?Ed, ?Eq, ?Em, ?Ea; intros H;
       repeat match goal with H : _ /\ _ |- _ => destruct H | H : _ \/ _ |- _ => destruct H end;
       try discriminate; auto;
       match goal with H : true = true -> _ |- _ => destruct (H eq_refl) as (? & ? & ?); discriminate end).
Qed.

Lemma writer_total : forall tic p, exists f, write_fmt tic (is_file tic p) p = Some f.
Proof.
  intros tic p. unfold write_fmt, is_file, recognized, last_fmt.
  destruct tic; simpl; endings p; simpl; eauto.
Qed.

Lemma reader_writer : forall isfile isdir tic p f, read_fmt isfile isdir tic p = Some f ->
  write_fmt tic (is_file tic p) p = Some f.
Proof.
  intros isfile isdir tic p f. unfold read_fmt, read_file_fmt, write_fmt, is_file, recognized, last_fmt.
  destruct tic; simpl; endings p; simpl; destruct (isfile p), (isdir p); simpl; intros H; try discriminate; auto.
Qed.

Lemma reader_total : forall isfile isdir tic p, isfile p = is_file tic p -> isdir p = negb (is_file tic p) ->
  read_fmt isfile isdir tic p = write_fmt tic (is_file tic p) p.
Proof.
  intros isfile isdir tic p H1 H2.
  assert (exists f, read_fmt isfile isdir tic p = Some f) as (f & Hf).
  { unfold read_fmt. rewrite H1, H2. revert H1 H2. unfold read_file_fmt, is_file, recognized.
    destruct tic; simpl; endings p; simpl; eauto. }
  rewrite Hf. symmetry. now apply reader_writer in Hf.
Qed.

(** ** Options *)

(** The value of the last option of kind [k]. *)
Definition last_of (k : okey) (l : list (okey * string)) (v : string) : Prop :=
  exists l1 l2, l = l1 ++ (k, v) :: l2 /\ forall w, ~ In (k, w) l2.

Definition never (k : okey) (l : list (okey * string)) : Prop := forall w, ~ In (k, w) l.

Lemma never_or_last : forall k l, never k l \/ exists v, last_of k l v.
Proof.
  intros k l. induction l as [| [k' w] l [IH | (v & l1 & l2 & -> & H)]].
  - left. intros w [].
  - assert (k = k' \/ k <> k') as [<- | Hn] by (destruct k, k'; auto; right; discriminate).
    + right. exists w, [], l. auto.
    + left. intros x [E | Hx]; [congruence | now apply IH in Hx].
  - right. exists v, ((k', w) :: l1), l2. auto.
Qed.

Lemma last_cons : forall k k' w l v, last_of k ((k', w) :: l) v <-> last_of k l v \/ (never k l /\ k' = k /\ w = v).
Proof.
  intros k k' w l v. split.
  - intros (l1 & l2 & E & H). destruct l1 as [| x l1]; simpl in E.
    + injection E as -> -> ->. right. auto.
    + injection E as <- ->. left. exists l1, l2. auto.
  - intros [(l1 & l2 & -> & H) | (H & -> & ->)].
    + exists ((k', w) :: l1), l2. auto.
    + exists [], l. auto.
Qed.

Lemma last_in : forall k l v, last_of k l v -> In (k, v) l.
Proof. intros k l v (l1 & l2 & -> & _). apply in_or_app. right. now left. Qed.

Lemma last_det : forall k l v v', last_of k l v -> last_of k l v' -> v = v'.
Proof.
  intros k l. induction l as [| [k' w] l IH]; intros v v' H H'.
  - apply last_in in H as [].
  - apply last_cons in H, H'. destruct H as [H | (H & -> & ->)], H' as [H' | (H' & _ & <-)]; eauto.
    + apply last_in in H. now apply H' in H.
    + apply last_in in H'. now apply H in H'.
Qed.

Lemma never_cons : forall k k' w l, never k ((k', w) :: l) <-> k' <> k /\ never k l.
Proof.
  intros k k' w l. split.
  - intros H. split; [intros -> ; apply (H w); now left | intros x Hx; apply (H x); now right].
  - intros [H1 H2] x [E | Hx]; [congruence | now apply H2 in Hx].
Qed.

Lemma settle_help : forall l s, settle_opts l s = None <-> exists w, In (KHelp, w) l.
Proof.
  induction l as [| [k a] l IH]; intros s; simpl.
  - split; [discriminate | intros (w & [])].
  - destruct k; [split; [intros _; exists a; now left | auto] | | | |]; rewrite IH; split; intros (w & H);
      exists w; [now right | destruct H as [H | H]; [discriminate | auto]
                | now right | destruct H as [H | H]; [discriminate | auto]
                | now right | destruct H as [H | H]; [discriminate | auto]
                | now right | destruct H as [H | H]; [discriminate | auto]].
Qed.

Lemma settle_last : forall l s s', settle_opts l s = Some s' ->
  (forall v, last_of KInput l v -> s_in s' = v) /\ (never KInput l -> s_in s' = s_in s) /\
  (forall v, last_of KOutput l v -> s_out s' = v) /\ (never KOutput l -> s_out s' = s_out s) /\
  (forall v, last_of KForesta l v -> s_foresta s' = Some v) /\ (never KForesta l -> s_foresta s' = s_foresta s) /\
  (forall v, last_of KErrors l v -> s_err s' = Some v) /\ (never KErrors l -> s_err s' = s_err s).
Proof.
  induction l as [| [k a] l IH]; intros s s' H; simpl in H.
  - injection H as <-. repeat split; auto; intros v Hv; apply last_in in Hv as [].
  - destruct k; [discriminate H | | | |]; apply IH in H as (A1 & A2 & B1 & B2 & C1 & C2 & D1 & D2); simpl in *;
    refine (conj _ (conj _ (conj _ (conj _ (conj _ (conj _ (conj _ _)))))));
    try (intros v Hv; apply last_cons in Hv as [Hv | (Hv & E & <-)]; [now auto | first [discriminate E | now rewrite ?A2, ?B2, ?C2, ?D2 by exact Hv]]);
    intros Hv; apply never_cons in Hv as [Hn Hv]; try congruence; auto.
Qed.

Lemma help_says_nothing : forall D S tic ex fi di du re it so fo rm up dl argv opts rest w,
  getopt argv = Some (opts, rest) -> In (KHelp, w) opts ->
  main D S tic ex fi di du re it so fo rm up dl argv = ([], Usage 0).
Proof.
  intros. unfold main. rewrite H. assert (settle_opts opts defaults0 = None) as -> by (apply settle_help; eauto). reflexivity.
Qed.

Lemma short_word : forall k c v, short_key c = Some k -> takes_arg k = true -> Ascii.eqb c "-" = false ->
  classify (String "-" (String c v)) = WOpt (Some (match v with EmptyString => ([], Some k) | _ => ([(k, v)], None) end)).
Proof.
  intros k c v H H1 H2. unfold classify. rewrite Ascii.eqb_refl, H2. simpl. rewrite H, H1. destruct v; reflexivity.
Qed.

Lemma getopt_app : forall a rest, classify a = WPlain -> getopt (a :: rest) = Some ([], a :: rest).
Proof. intros a rest H. simpl. now rewrite H. Qed.

(** ** The run *)

Section Run.
  Variable D S : Type.
  Variable tic : bool.
  Variables exists_ isfile isdir : string -> bool.
  Variable dups : fmt -> string -> option bool.
  Variable read : fmt -> string -> option D.
  Variable integrity : D -> option nat.
  Variable solve : option D -> option (result S).
  Variable foresta : string -> option (option fmode).
  Variable remote : option D -> option (result S).
  Variable upload : option D -> bool.
  Variable download : option (result S).

  Notation main := (main D S tic exists_ isfile isdir dups read integrity solve foresta remote upload download).
  Notation run := (run D S tic exists_ isfile isdir dups read integrity solve foresta remote upload download).

  (** Path [p] is read into [d], without duplicates where they are looked for. *)
  Definition loads (p : string) (d : D) : Prop :=
    exists_ p = true /\ exists f, read_fmt isfile isdir tic p = Some f /\ read f p = Some d /\
      (tic = true -> f <> FSql -> dups f p = Some false).

  (** The integrity check, if asked for, finds nothing and its report can be written. *)
  Definition checked (err : option string) (d : D) : Prop :=
    forall e, err = Some e -> e <> EmptyString ->
      integrity d = Some 0 /\ exists f, write_fmt false (is_file tic e) e = Some f.

  Definition plain (s : settings) : Prop :=
    s_in s <> EmptyString /\ s_out s <> EmptyString /\ (s_foresta s = None \/ s_foresta s = Some EmptyString).

  Definition is_solve (e : event D S) : bool := match e with ESolve _ _ _ => true | _ => false end.
  Definition is_write (e : event D S) : bool := match e with EWriteSln _ _ _ _ _ => true | _ => false end.

  Lemma truthy_some : forall s, s <> EmptyString -> truthy (Some s) = Some s.
  Proof. intros [| c s] H; simpl; congruence. Qed.

  (** What follows the loading of [d]. *)
  Definition after (s : settings) (f : fmt) (d : D) : trace D S :=
    checking D S tic integrity (truthy (s_err s)) (Some d)
      (say D S (ESolve D S (Some d))
         (match solve (Some d) with Some r => finish D S (Some (f, s_out s)) (unpack S r) | None => ([], Crashed) end)).

  Lemma run_plain : forall s, plain s -> exists f, write_fmt tic (is_file tic (s_out s)) (s_out s) = Some f /\
    ((exists d f0, loads (s_in s) d /\ read_fmt isfile isdir tic (s_in s) = Some f0 /\
       run s = (fst (if tic && negb (match f0 with FSql => true | _ => false end) then ([ECheckDups D S f0 (s_in s)], Finished) else ([], Finished))
                ++ ERead D S f0 (s_in s) :: fst (after s f d), snd (after s f d))) \/
     ((forall d, ~ loads (s_in s) d) /\
      (forall e, In e (fst (run s)) -> exists f0, e = ECheckDups D S f0 (s_in s)) /\
      (snd (run s) = Finished -> exists_ (s_in s) = false /\ fst (run s) = []))).
  Proof.
    intros s (Hi & Ho & Hf). destruct (writer_total tic (s_out s)) as (f & Ef). exists f. split; [exact Ef |].
    assert (run s = working D S tic exists_ isfile isdir dups read integrity solve remote upload download None
              (Some (s_in s)) (Some (s_out s)) (truthy (s_err s))) as ->.
    { unfold Main.run. rewrite (truthy_some (s_in s)), (truthy_some (s_out s)) by auto.
      destruct Hf as [-> | ->]; reflexivity. }
    unfold working. rewrite Ef. destruct (exists_ (s_in s)) eqn:Ee.
    2:{ right. split; [intros d (H & _); congruence | split; [intros e [] | auto]]. }
    unfold get_dat. destruct (read_fmt isfile isdir tic (s_in s)) as [f0 |] eqn:Er.
    2:{ right. split; [intros d (_ & f0 & H & _); congruence | split; [intros e [] | discriminate]]. }
    assert (forall d, loads (s_in s) d -> read f0 (s_in s) = Some d /\ (tic = true -> f0 <> FSql -> dups f0 (s_in s) = Some false)) as Hl.
    { intros d (_ & f1 & H1 & H2 & H3). rewrite Er in H1. injection H1 as <-. auto. }
    assert (negb (match f0 with FSql => true | _ => false end) = true <-> f0 <> FSql) as Hsql.
    { destruct f0; simpl; split; congruence. }
    destruct (tic && negb (match f0 with FSql => true | _ => false end)) eqn:Et; pose proof Et as Et0; cbn [fst snd app].
    - apply andb_prop in Et as [Et1 Et2]. apply Hsql in Et2.
      destruct (dups f0 (s_in s)) as [[|] |] eqn:Edp.
      + right. split; [intros d H; apply Hl in H as [_ H]; specialize (H Et1 Et2); discriminate |].
        split; [intros e [<- | []]; eauto | discriminate].
      + destruct (read f0 (s_in s)) as [d |] eqn:Erd.
        * left. exists d, f0. split; [| split; [reflexivity | rewrite Et0; reflexivity]]. split; [exact Ee |]. exists f0. split; [exact Er |]. split; [exact Erd | auto].
        * right. split; [intros d H; now apply Hl in H as [H _] |]. split; [intros e [<- | []]; eauto | discriminate].
      + right. split; [intros d H; apply Hl in H as [_ H]; specialize (H Et1 Et2); discriminate |].
        split; [intros e [<- | []]; eauto | discriminate].
    - destruct (read f0 (s_in s)) as [d |] eqn:Erd.
      + left. exists d, f0. split; [| split; [reflexivity | rewrite Et0; reflexivity]]. split; [exact Ee |]. exists f0. split; [exact Er |]. split; [exact Erd |].
        intros Ht Hn. rewrite Ht in Et. simpl in Et. apply Hsql in Hn. congruence.
      + right. split; [intros d H; now apply Hl in H as [H _] |]. split; [intros e [] | discriminate].
  Qed.

  Lemma loads_det : forall p d d', loads p d -> loads p d' -> d = d'.
  Proof. intros p d d' (_ & f & H1 & H2 & _) (_ & f' & H1' & H2' & _). congruence. Qed.

  Local Ltac evs := repeat match goal with
    | |- forall _, _ => intro
    | |- _ <-> _ => split
    | |- ~ _ => intro
    | H : _ \/ _ |- _ => destruct H
    | H : False |- _ => destruct H
    | H : exists _, _ |- _ => destruct H
    | H : _ /\ _ |- _ => destruct H
    | H : ESolve _ _ _ = ESolve _ _ _ |- _ => injection H as H
    | H : EWriteSln _ _ _ _ _ = EWriteSln _ _ _ _ _ |- _ => injection H; clear H; intros; subst
    | H : @eq (event _ _) _ _ |- _ => discriminate H
    end.

  (** What the trace of [after] holds. *)
  Lemma after_events : forall s f d,
    (forall x, In (ESolve D S x) (fst (after s f d)) <-> x = Some d /\ checked (s_err s) d) /\
    (forall g p x, In (EWriteSln D S g p x) (fst (after s f d)) <->
       g = f /\ p = s_out s /\ checked (s_err s) d /\ exists r, solve (Some d) = Some r /\ unpack S r = RSln S x) /\
    (forall g p, In (EWriteErr D S g p) (fst (after s f d)) <->
       s_err s = Some p /\ p <> EmptyString /\ (exists n, integrity d = Some n) /\ write_fmt false (is_file tic p) p = Some g) /\
    (In (ENoSolution D S) (fst (after s f d)) <-> checked (s_err s) d /\ exists r, solve (Some d) = Some r /\ unpack S r = RFalsy S) /\
    List.length (filter is_solve (fst (after s f d))) <= 1 /\
    List.length (filter is_write (fst (after s f d))) <= 1 /\
    (forall l g p x l', fst (after s f d) = l ++ EWriteSln D S g p x :: l' -> l' = [] /\ In (ESolve D S (Some d)) l) /\
    (snd (after s f d) = Finished ->
       (exists p n, s_err s = Some p /\ p <> EmptyString /\ integrity d = Some (Datatypes.S n)) \/ In (ENoSolution D S) (fst (after s f d)) \/
       exists g p x, In (EWriteSln D S g p x) (fst (after s f d))).
  Proof.
    intros s f d.
    set (tail := say D S (ESolve D S (Some d))
         (match solve (Some d) with Some r => finish D S (Some (f, s_out s)) (unpack S r) | None => ([], Crashed) end)).
    assert ((forall x, In (ESolve D S x) (fst tail) <-> x = Some d) /\
      (forall g p x, In (EWriteSln D S g p x) (fst tail) <->
         g = f /\ p = s_out s /\ exists r, solve (Some d) = Some r /\ unpack S r = RSln S x) /\
      (forall g p, ~ In (EWriteErr D S g p) (fst tail)) /\
      (In (ENoSolution D S) (fst tail) <-> exists r, solve (Some d) = Some r /\ unpack S r = RFalsy S) /\
      List.length (filter is_solve (fst tail)) <= 1 /\ List.length (filter is_write (fst tail)) <= 1 /\
      (forall l g p x l', fst tail = l ++ EWriteSln D S g p x :: l' -> l' = [] /\ In (ESolve D S (Some d)) l) /\
      (snd tail = Finished -> In (ENoSolution D S) (fst tail) \/ exists g p x, In (EWriteSln D S g p x) (fst tail)))
      as (T1 & T2 & T3 & T4 & T5 & T6 & T7 & T8).
    { unfold tail. destruct (solve (Some d)) as [r |]; [destruct (unpack S r) as [| y | r' |] eqn:Eu |]; cbn;
        refine (conj _ (conj _ (conj _ (conj _ (conj _ (conj _ (conj _ _))))))); auto; evs;
        try (match goal with H : _ = ?l ++ _ :: _ |- _ =>
               destruct l as [| e1 [| e2 [| e3 l]]]; simpl in H; try discriminate H; injection H; intros; subst end);
        try congruence; eauto 8.
      all: try (right; left; congruence). all: try (split; [auto | now left]). all: left; congruence. }
    unfold after. fold tail. unfold checking.
    destruct (truthy (s_err s)) as [e |] eqn:Ete.
    2:{ assert (checked (s_err s) d) as Hc.
        { intros e He Hn. rewrite He, truthy_some in Ete by auto. discriminate. }
        refine (conj _ (conj _ (conj _ (conj _ (conj _ (conj _ (conj _ _))))))); auto.
        - intros x. rewrite T1. tauto.
        - intros g p x. rewrite T2. tauto.
        - intros g p. split; [intros H; now apply T3 in H | intros (H1 & H2 & _)]. rewrite H1, truthy_some in Ete by auto. discriminate.
        - rewrite T4. tauto. }
    assert (s_err s = Some e /\ e <> EmptyString) as [He Hne].
    { destruct (s_err s) as [[| c e'] |]; simpl in Ete; try discriminate. injection Ete as <-. split; congruence. }
    assert (checked (s_err s) d <-> integrity d = Some 0 /\ exists g, write_fmt false (is_file tic e) e = Some g) as Hck.
    { split; [intros H; apply H; auto |]. intros H e' E' _. assert (e' = e) as -> by congruence. exact H. }
    assert (forall t : trace D S, t = ([], Crashed) -> ~ checked (s_err s) d ->
      (forall n g, integrity d = Some n -> write_fmt false (is_file tic e) e = Some g -> False) ->
      let T := say D S (EIntegrity D S (Some d)) t in
      (forall x, In (ESolve D S x) (fst T) <-> x = Some d /\ checked (s_err s) d) /\
      (forall g p x, In (EWriteSln D S g p x) (fst T) <->
         g = f /\ p = s_out s /\ checked (s_err s) d /\ exists r, solve (Some d) = Some r /\ unpack S r = RSln S x) /\
      (forall g p, In (EWriteErr D S g p) (fst T) <->
         s_err s = Some p /\ p <> EmptyString /\ (exists n, integrity d = Some n) /\ write_fmt false (is_file tic p) p = Some g) /\
      (In (ENoSolution D S) (fst T) <-> checked (s_err s) d /\ exists r, solve (Some d) = Some r /\ unpack S r = RFalsy S) /\
      List.length (filter is_solve (fst T)) <= 1 /\
      List.length (filter is_write (fst T)) <= 1 /\
      (forall l g p x l', fst T = l ++ EWriteSln D S g p x :: l' -> l' = [] /\ In (ESolve D S (Some d)) l) /\
      (snd T = Finished ->
         (exists p n, s_err s = Some p /\ p <> EmptyString /\ integrity d = Some (Datatypes.S n)) \/ In (ENoSolution D S) (fst T) \/
         exists g p x, In (EWriteSln D S g p x) (fst T))) as Hcrash.
    { intros t -> Hnc Hno T. subst T. cbn [say fst snd].
      refine (conj _ (conj _ (conj _ (conj _ (conj _ (conj _ (conj _ _))))))); auto.
      - intros x. split; [intros [H | []]; discriminate | tauto].
      - intros g p x. split; [intros [H | []]; discriminate | tauto].
      - intros g p. split; [intros [H | []]; discriminate |].
        intros (E1 & _ & (n & E2) & E3). rewrite He in E1. injection E1 as <-. exfalso. eauto.
      - split; [intros [H | []]; discriminate | tauto].
      - intros l g p x l' H. destruct l as [| e1 [| e2 l]]; simpl in H; discriminate.
      - discriminate. }
    destruct (integrity d) as [n |] eqn:En.
    2:{ apply Hcrash; [reflexivity | rewrite Hck; intros [H _]; discriminate | intros n g H; discriminate]. }
    destruct (write_fmt false (is_file tic e) e) as [g0 |] eqn:Eg.
    2:{ apply Hcrash; [reflexivity | rewrite Hck; intros [_ (g & H)]; discriminate | intros m g _ H; discriminate]. }
    clear Hcrash. destruct n as [| n].
    - assert (checked (s_err s) d) as Hc by (apply Hck; eauto). cbn [say fst snd].
      refine (conj _ (conj _ (conj _ (conj _ (conj _ (conj _ (conj _ _))))))).
      + intros x. split; [intros [H | [H | H]]; try discriminate; split; auto; now apply T1 | intros [-> _]; right; right; now apply T1].
      + intros g p x. split.
        * intros [H | [H | H]]; try discriminate. apply T2 in H as (H1 & H2 & H3). auto.
        * intros (H1 & H2 & _ & H3). right. right. apply T2. auto.
      + intros g p. split.
        * intros [H | [H | H]]; try discriminate; [| now apply T3 in H]. injection H as <- <-. eauto.
        * intros (E1 & _ & _ & E3). assert (p = e) as -> by congruence. assert (g = g0) as -> by congruence. right. now left.
      + split; [intros [H | [H | H]]; try discriminate; split; auto; now apply T4 | intros [_ H]; right; right; now apply T4].
      + exact T5.
      + exact T6.
      + intros l g p x l' H. destruct l as [| e1 [| e2 l]]; simpl in H; try discriminate.
        injection H as <- <- H. apply T7 in H as [-> H]. split; auto. right. now right.
      + intros H. apply T8 in H as [H | (g & p & x & H)]; right; [left | right; exists g, p, x]; right; now right.
    - assert (~ checked (s_err s) d) as Hnc by (rewrite Hck; intros [H _]; discriminate). cbn [say fst snd].
      refine (conj _ (conj _ (conj _ (conj _ (conj _ (conj _ (conj _ _))))))); auto.
      + intros x. split; [intros [H | [H | []]]; discriminate | tauto].
      + intros g p x. split; [intros [H | [H | []]]; discriminate | tauto].
      + intros g p. split.
        * intros [H | [H | []]]; try discriminate. injection H as <- <-. eauto.
        * intros (E1 & _ & _ & E3). assert (p = e) as -> by congruence. assert (g = g0) as -> by congruence. right. now left.
      + split; [intros [H | [H | []]]; discriminate | tauto].
      + intros l g p x l' H. destruct l as [| e1 [| e2 [| e3 l]]]; simpl in H; discriminate.
      + intros _. left. eauto.
  Qed.

  Theorem run_exact : forall s, plain s ->
    (forall x, In (ESolve D S x) (fst (run s)) <-> exists d, x = Some d /\ loads (s_in s) d /\ checked (s_err s) d) /\
    (forall g p x, In (EWriteSln D S g p x) (fst (run s)) <->
       p = s_out s /\ write_fmt tic (is_file tic p) p = Some g /\
       exists d r, In (ESolve D S (Some d)) (fst (run s)) /\ solve (Some d) = Some r /\ unpack S r = RSln S x) /\
    (forall g p, In (EWriteErr D S g p) (fst (run s)) <->
       s_err s = Some p /\ p <> EmptyString /\ write_fmt false (is_file tic p) p = Some g /\
       exists d n, loads (s_in s) d /\ integrity d = Some n) /\
    (In (ENoSolution D S) (fst (run s)) <->
       exists d r, In (ESolve D S (Some d)) (fst (run s)) /\ solve (Some d) = Some r /\ unpack S r = RFalsy S) /\
    List.length (filter is_solve (fst (run s))) <= 1 /\
    List.length (filter is_write (fst (run s))) <= 1 /\
    (forall l g p x l', fst (run s) = l ++ EWriteSln D S g p x :: l' -> l' = [] /\ exists d, In (ESolve D S (Some d)) l) /\
    (snd (run s) = Finished ->
       exists_ (s_in s) = false \/
       (exists p d n, s_err s = Some p /\ p <> EmptyString /\ loads (s_in s) d /\ integrity d = Some (Datatypes.S n)) \/
       In (ENoSolution D S) (fst (run s)) \/ exists g p x, In (EWriteSln D S g p x) (fst (run s))).
  Proof.
    intros s Hp. destruct (run_plain s Hp) as (f & Ef & [(d & f0 & Hl & Hr0 & Hrun) | (Hnl & Hev & Hfin)]).
    - pose proof (after_events s f d) as (A1 & A2 & A3 & A4 & A5 & A6 & A7 & A8).
      rewrite Hrun. cbn [fst snd].
      set (pre := fst (if tic && negb (match f0 with FSql => true | _ => false end) then ([ECheckDups D S f0 (s_in s)], Finished) else ([], Finished))).
      assert (forall e, In e (pre ++ ERead D S f0 (s_in s) :: fst (after s f d)) <->
                (e = ECheckDups D S f0 (s_in s) /\ In e pre) \/ e = ERead D S f0 (s_in s) \/ In e (fst (after s f d))) as Hin.
      { intros e. rewrite in_app_iff. simpl. split.
        - intros [H | [H | H]]; auto. left. split; auto. unfold pre in H. destruct (tic && _) in H; simpl in H; [destruct H as [<- | []]; auto | tauto].
        - intros [[_ H] | [H | H]]; auto. }
      assert (forall x, In (ESolve D S x) (pre ++ ERead D S f0 (s_in s) :: fst (after s f d)) <-> x = Some d /\ checked (s_err s) d) as Hs.
      { intros x. rewrite Hin, A1. split; [intros [[H _] | [H | H]]; try discriminate; auto | auto]. }
      refine (conj _ (conj _ (conj _ (conj _ (conj _ (conj _ (conj _ _))))))).
      + intros x. rewrite Hs. split; [intros [-> H]; eauto |]. intros (d' & -> & H1 & H2).
        assert (d' = d) as -> by (eapply loads_det; eauto). auto.
      + intros g p x. rewrite Hin, A2. split.
        * intros [[H _] | [H | (-> & -> & H1 & r & H2)]]; try discriminate. split; auto. split; auto. exists d, r. rewrite Hs. auto.
        * intros (-> & H1 & d' & r & H2 & H3). rewrite Hs in H2. destruct H2 as [E H2]. injection E as ->.
          right. right. split; [congruence | eauto].
      + intros g p. rewrite Hin, A3. split.
        * intros [[H _] | [H | (H1 & H2 & (n & H3) & H4)]]; try discriminate. eauto 8.
        * intros (H1 & H2 & H3 & d' & n & H4 & H5). assert (d' = d) as -> by (eapply loads_det; eauto). eauto 8.
      + rewrite Hin, A4. split.
        * intros [[H _] | [H | (H1 & r & H2)]]; try discriminate. exists d, r. rewrite Hs. auto.
        * intros (d' & r & H2 & H3). rewrite Hs in H2. destruct H2 as [E H2]. injection E as ->. eauto.
      + rewrite filter_app, app_length. replace (filter is_solve pre) with (@nil (event D S)); [exact A5 |].
        unfold pre. destruct (tic && _); reflexivity.
      + rewrite filter_app, app_length. replace (filter is_write pre) with (@nil (event D S)); [exact A6 |].
        unfold pre. destruct (tic && _); reflexivity.
      + intros l g p x l' H.
        assert (exists l0, l = pre ++ ERead D S f0 (s_in s) :: l0 /\ fst (after s f d) = l0 ++ EWriteSln D S g p x :: l') as (l0 & -> & H0).
        { unfold pre in *. destruct (tic && _); simpl in *.
          - destruct l as [| e1 [| e2 l]]; simpl in H; try discriminate. injection H as <- <- H. eauto.
          - destruct l as [| e1 l]; simpl in H; try discriminate. injection H as <- H. eauto. }
        apply A7 in H0 as [-> H0]. split; auto. exists d. apply in_or_app. right. now right.
      + intros H. apply A8 in H as [(p & n & H1 & H2 & H3) | [H | (g & p & x & H)]]; right.
        * left. eauto 8.
        * right. left. apply Hin. auto.
        * right. right. exists g, p, x. apply Hin. auto.
    - assert (forall e, (forall f0 p, e <> ECheckDups D S f0 p) -> ~ In e (fst (run s))) as Hno.
      { intros e He H. apply Hev in H as (f0 & ->). now apply (He f0 (s_in s)). }
      assert (forall x, ~ In (ESolve D S x) (fst (run s))) as Hs by (intros x; apply Hno; discriminate).
      assert (forall q : event D S -> bool, (forall f0 p, q (ECheckDups D S f0 p) = false) -> filter q (fst (run s)) = []) as Hq.
      { intros q Hq. destruct (filter q (fst (run s))) as [| e l] eqn:E; auto.
        assert (In e (filter q (fst (run s)))) as H by (rewrite E; now left).
        apply filter_In in H as [H H']. apply Hev in H as (f0 & ->). now rewrite Hq in H'. }
      refine (conj _ (conj _ (conj _ (conj _ (conj _ (conj _ (conj _ _))))))).
      + intros x. split; [intros H; now apply Hs in H | intros (d & _ & H & _); now apply Hnl in H].
      + intros g p x. split; [intros H; now apply Hno in H | intros (_ & _ & d & r & H & _); now apply Hs in H].
      + intros g p. split; [intros H; now apply Hno in H | intros (_ & _ & _ & d & n & H & _); now apply Hnl in H].
      + split; [intros H; now apply Hno in H | intros (d & r & H & _); now apply Hs in H].
      + rewrite Hq; auto.
      + rewrite Hq; auto.
      + intros l g p x l' H. exfalso. apply (Hno (EWriteSln D S g p x)); [discriminate |]. rewrite H. apply in_or_app. right. now left.
      + intros H. left. now apply Hfin in H.
  Qed.

  (** What is returned means a solution, or none. *)
  Definition solution (r : result S) (x : S) : Prop := r = RSln S x \/ r = RPair S (RSln S x).
  Definition no_solution (r : result S) : Prop := r = RFalsy S \/ r = RPair S (RFalsy S).

  Lemma unpack_solution : forall r x, unpack S r = RSln S x <-> solution r x.
  Proof.
    intros r x. unfold solution. split; [| intros [-> | ->]; reflexivity].
    intros H. destruct r; simpl in H; try discriminate; subst; auto.
  Qed.

  Lemma unpack_none : forall r, unpack S r = RFalsy S <-> no_solution r.
  Proof.
    intros r. unfold no_solution. split; [| intros [-> | ->]; reflexivity].
    intros H. destruct r; simpl in H; try discriminate; subst; auto.
  Qed.

  Theorem run_ends : forall s, plain s ->
    (snd (run s) = Finished <->
       exists_ (s_in s) = false \/
       exists d, loads (s_in s) d /\
         ((exists p n g, s_err s = Some p /\ p <> EmptyString /\ integrity d = Some (Datatypes.S n) /\ write_fmt false (is_file tic p) p = Some g) \/
          (checked (s_err s) d /\ exists r, solve (Some d) = Some r /\ (no_solution r \/ exists x, solution r x)))) /\
    (snd (run s) = Finished \/ snd (run s) = Crashed).
  Proof.
    intros s Hp. destruct (run_plain s Hp) as (f & Ef & [(d & f0 & Hl & Hr0 & Hrun) | (Hnl & _ & Hfin)]).
    - assert (forall r, snd (finish D S (Some (f, s_out s)) (unpack S r)) = Finished <-> no_solution r \/ exists x, solution r x) as F1.
      { intros r. split.
        - intros H. destruct (unpack S r) as [| x | r' |] eqn:E; simpl in H; try discriminate.
          + left. now apply unpack_none.
          + right. exists x. now apply unpack_solution.
        - intros [H | (x & H)]; [apply unpack_none in H | apply unpack_solution in H]; rewrite H; reflexivity. }
      assert (forall r, snd (finish D S (Some (f, s_out s)) (unpack S r)) = Finished \/ snd (finish D S (Some (f, s_out s)) (unpack S r)) = Crashed) as F2.
      { intros r. destruct (unpack S r); simpl; auto. }
      assert (forall t, snd (say D S (ESolve D S (Some d)) t) = snd t) as F3 by reflexivity.
      assert ((exists_ (s_in s) = false -> False)) as F4 by (destruct Hl; congruence).
      assert (forall P : D -> Prop, (exists d', loads (s_in s) d' /\ P d') <-> P d) as F5.
      { intros P. split; [intros (d' & H & HP); now rewrite (loads_det _ _ _ Hl H) | intros H; eauto]. }
      rewrite Hrun. cbn [fst snd]. rewrite F5.
      assert (snd (match solve (Some d) with Some r => finish D S (Some (f, s_out s)) (unpack S r) | None => ([], Crashed) end) = Finished <->
              exists r, solve (Some d) = Some r /\ (no_solution r \/ exists x, solution r x)) as F6.
      { destruct (solve (Some d)) as [r |].
        - rewrite F1. split; [eauto | intros (r' & E & H); injection E as <-; exact H].
        - split; [discriminate | intros (r & E & _); discriminate]. }
      assert (snd (match solve (Some d) with Some r => finish D S (Some (f, s_out s)) (unpack S r) | None => ([], Crashed) end) = Finished \/
              snd (match solve (Some d) with Some r => finish D S (Some (f, s_out s)) (unpack S r) | None => ([], Crashed) end) = Crashed) as F7.
      { destruct (solve (Some d)) as [r |]; auto. }
      unfold after, checking. destruct (truthy (s_err s)) as [e |] eqn:Ee.
      + assert (s_err s = Some e /\ e <> EmptyString) as [E1 E2].
        { destruct (s_err s) as [[| c e'] |]; simpl in Ee; try discriminate. injection Ee as <-. split; congruence. }
        cbn [snd say]. destruct (integrity d) as [[| n] |] eqn:Ei; [| |].
        * destruct (write_fmt false (is_file tic e) e) as [g |] eqn:Ew; cbn [snd say].
          -- split; [rewrite F6 | exact F7]. split.
             ++ intros H. right. right. split; auto. intros e' He' _. rewrite E1 in He'. injection He' as <-. eauto.
             ++ intros [H | [(p & n & g' & _ & _ & H & _) | [_ H]]]; [now apply F4 in H | congruence | exact H].
          -- split; [| now right]. split; [discriminate |]. intros [H | [(p & n & g' & _ & _ & H & _) | [H _]]].
             ++ now apply F4 in H.
             ++ congruence.
             ++ destruct (H e E1 E2) as (_ & g' & H'). congruence.
        * destruct (write_fmt false (is_file tic e) e) as [g |] eqn:Ew; cbn [snd say].
          -- split; [| now left]. split; [| reflexivity]. intros _. right. left. exists e, n, g. auto.
          -- split; [| now right]. split; [discriminate |]. intros [H | [(p & n' & g' & H1 & _ & _ & H2) | [H _]]].
             ++ now apply F4 in H.
             ++ congruence.
             ++ destruct (H e E1 E2) as (_ & g' & H'). congruence.
        * split; [| now right]. split; [discriminate |]. intros [H | [(p & n' & g' & _ & _ & H & _) | [H _]]].
          -- now apply F4 in H.
          -- congruence.
          -- destruct (H e E1 E2) as (H' & _). congruence.
      + rewrite F3. assert (forall e, s_err s = Some e -> e = EmptyString) as E1.
        { intros e He. rewrite He in Ee. destruct e; [reflexivity | discriminate]. }
        split; [rewrite F6 | exact F7]. split.
        * intros H. right. right. split; auto. intros e He Hn. now apply E1 in He.
        * intros [H | [(p & n & g' & H & Hn & _) | [_ H]]]; [now apply F4 in H | now apply E1 in H | exact H].
    - assert (exists_ (s_in s) = false -> snd (run s) = Finished) as G1.
      { intros He. destruct Hp as (Hi & Ho & Hf). unfold Main.run. rewrite (truthy_some (s_in s)), (truthy_some (s_out s)) by auto.
        assert (truthy (s_foresta s) = None) as -> by (destruct Hf as [-> | ->]; reflexivity). unfold working. now rewrite He. }
      split.
      + split; [intros H; left; now apply Hfin in H |]. intros [H | (d & H & _)]; [now apply G1 | now apply Hnl in H].
      + destruct Hp as (Hi & Ho & Hf). clear G1 Hfin. revert Hnl. unfold loads. unfold Main.run.
        rewrite (truthy_some (s_in s)), (truthy_some (s_out s)) by auto.
        assert (truthy (s_foresta s) = None) as -> by (destruct Hf as [-> | ->]; reflexivity). unfold working.
        destruct (exists_ (s_in s)); [| auto]. unfold get_dat. destruct (read_fmt isfile isdir tic (s_in s)) as [f0 |]; [| auto].
        intros Hnl. destruct (tic && _) eqn:Et.
        * destruct (dups f0 (s_in s)) as [[|] |] eqn:Edp; auto. destruct (read f0 (s_in s)) as [d |] eqn:Er; auto.
          exfalso. apply (Hnl d). split; auto. exists f0. auto.
        * destruct (read f0 (s_in s)) as [d |] eqn:Er; auto. exfalso. apply (Hnl d). split; auto. exists f0. split; auto. split; auto.
          intros Ht Hn. rewrite Ht in Et. destruct f0; simpl in Et; discriminate || congruence.
  Qed.
End Run.

(** A report is made by a PanDatFactory. *)
Lemma report_documented : forall tic p f, write_fmt false (is_file tic p) p = Some f <-> documented tic p f /\ f <> FSql /\ f <> FMdb.
Proof.
  intros tic p f. rewrite <- writer_documented. unfold write_fmt. destruct (is_file tic p) eqn:E; [| split; [intros H; injection H as <-; repeat split; discriminate | tauto]].
  destruct tic.
  - destruct (last_fmt p) as [[| | | | |] |]; split; try discriminate; try (intros H; injection H as <-; repeat split; discriminate); try tauto;
    intros (H & H1 & H2); injection H as <-; congruence.
  - revert E. unfold is_file, recognized, last_fmt. simpl. endings p; simpl; intros E; try discriminate;
    (split; [intros H; injection H as <-; repeat split; discriminate | tauto]).
Qed.
