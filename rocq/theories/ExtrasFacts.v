(** * Facts about Extras.v. *)
From Coq Require Import ZArith Bool List String Ascii Arith Lia Permutation DecimalString.
From Verif Require Import PyVal PyValFacts PyDict PyDictFacts PyStr TypeDict Data FindTypes FindTypesFacts FK Graph GraphFacts Obj Factory InfIO Params ParamsFacts Names NamesFacts Utils Json Frames AmplData Extras.
Import ListNotations.
Local Open Scope string_scope.
Local Open Scope list_scope.

(** ** Text *)

(** [s.split("\n")] *)
Fixpoint split_lines (s : string) : list string :=
  match s with
  | EmptyString => [""]
  | String c s' => if Ascii.eqb c "010" then "" :: split_lines s'
                   else match split_lines s' with [] => [String c ""] | l :: ls => String c l :: ls end
  end.
(** No line break in [s]. *)
Definition one_line (s : string) : Prop := has_char "010" s = false.

Lemma split_break : forall s, one_line s -> forall r, split_lines (append s (append newline r)) = s :: split_lines r.
Proof.
  unfold one_line. induction s as [| c s IH]; intros H r; [reflexivity |]. cbn [has_char] in H. apply orb_false_iff in H as [H1 H2].
  change (append (String c s) (append newline r)) with (String c (append s (append newline r))). cbn [split_lines]. rewrite Ascii.eqb_sym, H1, (IH H2 r). reflexivity.
Qed.
Lemma append_nil_r' : forall s, append s "" = s.
Proof. induction s; cbn; congruence. Qed.
Lemma append_assoc' : forall a b c, append (append a b) c = append a (append b c).
Proof. induction a; intros; cbn; congruence. Qed.
Lemma length_append' : forall a b, String.length (append a b) = String.length a + String.length b.
Proof. induction a; intros; cbn; auto. Qed.
Lemma concat_cons : forall s l, concat_str (s :: l) = append s (concat_str l).
Proof. reflexivity. Qed.
Lemma firstn_In' {A} : forall n (l : list A) x, In x (firstn n l) -> In x l.
Proof. induction n as [| n IH]; intros [| y l] x H; cbn in *; try contradiction. destruct H; auto. Qed.
Lemma concat_app : forall a b, concat_str (a ++ b) = append (concat_str a) (concat_str b).
Proof. induction a as [| s a IH]; intros b; [reflexivity |]. cbn [List.app]; rewrite !concat_cons. now rewrite IH, append_assoc'. Qed.
Lemma split_all : forall ls r, Forall one_line ls -> split_lines (append (concat_str (map (fun l => append l newline) ls)) r) = ls ++ split_lines r.
Proof.
  induction ls as [| l ls IH]; intros r H; [reflexivity |]. inversion H; subst. cbn [map List.app]; rewrite !concat_cons. rewrite !append_assoc'. rewrite split_break; auto.
  now rewrite IH.
Qed.
Lemma has_append : forall c a b, has_char c (append a b) = has_char c a || has_char c b.
Proof. induction a as [| x a IH]; intros b; cbn; [reflexivity |]. rewrite IH. now rewrite orb_assoc. Qed.
Lemma has_blanks : forall n, has_char "010" (blanks n) = false.
Proof. induction n; cbn; auto. Qed.
Lemma one_line_append : forall a b, one_line a -> one_line b -> one_line (append a b).
Proof. intros a b A B. unfold one_line in *. now rewrite has_append, A, B. Qed.
Lemma one_line_row : forall w row, Forall one_line row -> one_line (concat_str (map (ljust w) row)).
Proof.
  intros w row H. induction H as [| s row Hs _ IH]; [reflexivity |]. cbn [map]; rewrite ?concat_cons. apply one_line_append; [| exact IH].
  apply one_line_append; [exact Hs | apply has_blanks].
Qed.

(** ** Columns *)

Lemma length_blanks : forall n, String.length (blanks n) = n.
Proof. induction n; cbn; auto. Qed.
Lemma length_ljust : forall w s, String.length s <= w -> String.length (ljust w s) = w.
Proof. intros w s H. unfold ljust. rewrite length_append', length_blanks. lia. Qed.
Lemma substring_skip : forall a b n m, n = String.length a -> substring n m (append a b) = substring 0 m b.
Proof. induction a as [| c a IH]; intros b n m ->; [reflexivity |]. cbn [String.length append substring]. now apply IH. Qed.
Lemma substring_whole : forall a b n, n = String.length a -> substring 0 n (append a b) = a.
Proof. induction a as [| c a IH]; intros b n ->; cbn [String.length append substring]; [now destruct b | f_equal; now apply IH]. Qed.

Lemma columns_at : forall w row j s, (forall i x, i <= j -> nth_error row i = Some x -> String.length x <= w) -> nth_error row j = Some s ->
  substring (j * w) w (concat_str (map (ljust w) row)) = ljust w s.
Proof.
  intros w. induction row as [| x row IH]; intros j s H E; [destruct j; discriminate |]. cbn [map]; rewrite ?concat_cons.
  assert (String.length x <= w) as Hx by (apply (H 0 x); [lia | reflexivity]). destruct j as [| j].
  - injection E as ->. apply substring_whole. symmetry. now apply length_ljust.
  - cbn [Nat.mul]. cbn [nth_error] in E.
    assert (forall b n m, substring (String.length (ljust w x) + n) m (append (ljust w x) b) = substring n m b) as K.
    { intros b. generalize (ljust w x). induction s0 as [| c s0 IHs]; intros n m; [reflexivity |]. cbn [String.length append Nat.add substring]. apply IHs. }
    rewrite <- (length_ljust w x Hx) at 1. rewrite K. apply IH; auto. intros i y Hi Ey. apply (H (S i) y); [lia | exact Ey].
Qed.

(** A text that does not end in a blank is found again. *)
Fixpoint ends_blank (s : string) : bool :=
  match s with EmptyString => false | String c "" => Ascii.eqb c " " | String _ s' => ends_blank s' end.
Lemma ljust_inj : forall s s', ends_blank s = false -> ends_blank s' = false -> forall n m, append s (blanks n) = append s' (blanks m) -> s = s'.
Proof.
  assert (forall s n m, ends_blank s = false -> blanks m = append s (blanks n) -> s = "") as Z.
  { induction s as [| c s IH]; intros n m H E; [reflexivity |]. destruct m; [discriminate |]. cbn in E. injection E as <- E.
    destruct s as [| c' s]; [discriminate H |]. assert (ends_blank (String c' s) = false) as H' by exact H. specialize (IH _ _ H' E). discriminate IH. }
  induction s as [| c s IH]; intros [| c' s'] H H' n m E.
  - reflexivity.
  - symmetry. apply (Z _ m n H'). exact E.
  - apply (Z _ n m H). symmetry. exact E.
  - cbn in E. injection E as <- E. f_equal. destruct s as [| d s]; destruct s' as [| d' s']; auto.
    + change (append "" (blanks n)) with (blanks n) in E. symmetry. eapply Z; [exact H' | exact E].
    + change (append "" (blanks m)) with (blanks m) in E. symmetry in E. eapply Z; [exact H | exact E].
    + eapply IH; [exact H | exact H' | exact E].
Qed.
Lemma columns_inj : forall w row row', List.length row = List.length row' ->
  (forall x, In x row \/ In x row' -> String.length x <= w /\ ends_blank x = false) ->
  concat_str (map (ljust w) row) = concat_str (map (ljust w) row') -> row = row'.
Proof.
  intros w. induction row as [| x row IH]; intros [| y row'] L H E; try discriminate; [reflexivity |].
  assert (ljust w x = ljust w y) as Exy.
  { pose proof (columns_at w (x :: row) 0 x) as A. pose proof (columns_at w (y :: row') 0 y) as B. rewrite E in A. rewrite A in B; auto.
    - apply B; auto. intros i z Hi Ez. assert (i = 0) as -> by lia. injection Ez as <-. apply H. right. now left.
    - intros i z Hi Ez. assert (i = 0) as -> by lia. injection Ez as <-. apply H. left. now left. }
  assert (x = y) as <-. { eapply ljust_inj; [apply H; left; now left | apply H; right; now left | exact Exy]. }
  f_equal. apply IH; [now injection L | intros z [Hz | Hz]; apply H; [left | right]; now right |].
  cbn [map] in E; rewrite !concat_cons in E. clear -E. induction (ljust w x) as [| c s IHs]; [exact E |]. cbn in E. injection E as E. auto.
Qed.

Lemma shown_line : forall z, one_line (show_z z).
Proof.
  assert (forall u, one_line (NilEmpty.string_of_uint u)) as H by (induction u; unfold one_line in *; cbn; auto).
  assert (forall u, one_line (NilZero.string_of_uint u)) as H0 by (intros u; unfold NilZero.string_of_uint; destruct u; try reflexivity; apply H).
  intros z. unfold show_z. destruct (Z.to_int z) as [u | u]; unfold NilZero.string_of_int; [apply H0 |]. unfold one_line. cbn [has_char]. apply H0.
Qed.

Section Log.
  Context {A : Type}.
  Variable fmt : A -> string.

  (** The lines of the text that log_table writes. *)
  Theorem logged : forall name head rows (mx : nat) out,
    one_line name -> (forall r x, In r (head :: rows) -> In x r -> one_line (fmt x)) ->
    log_table fmt name (head :: rows) (Z.of_nat mx) = Ret out ->
    split_lines (concat_str out) = append "Table " (append name ":") ::
        (if Nat.ltb mx (List.length rows) then [append "(Showing first " (append (show_z (Z.of_nat mx)) (append " entries out of " (append (show_z (Z.of_nat (List.length rows))) " in total)")))] else []) ++
        map (fun r => concat_str (map (fun x => ljust (Utils.width (List.length head)) (fmt x)) r)) (head :: firstn mx rows) ++ [""; ""].
  Proof.
    intros name head rows mx out Hn Hr H. unfold log_table in H. destruct (forallb _ rows); [| discriminate].
    assert (forall a b : list string, Ret a = Ret b -> b = a) as R by (intros a b X; now injection X). apply R in H. subst out.
    assert (Z.ltb (Z.of_nat mx) (Z.of_nat (List.length rows)) = Nat.ltb mx (List.length rows)) as ->.
    { destruct (Nat.ltb_spec mx (List.length rows)); [apply Z.ltb_lt; lia | apply Z.ltb_ge; lia]. }
    assert (slice_to (Z.of_nat mx + 1) (head :: rows) = head :: firstn mx rows) as ->.
    { unfold slice_to. assert (Z.ltb (Z.of_nat mx + 1) 0 = false) as -> by (apply Z.ltb_ge; lia). replace (Z.to_nat (Z.of_nat mx + 1)) with (S mx) by lia. reflexivity. }
    set (note := append "(Showing first " (append (show_z (Z.of_nat mx)) (append " entries out of " (append (show_z (Z.of_nat (List.length rows))) " in total)")))).
    set (w := Utils.width (List.length head)).
    assert (append "Table " (append name (append ":" newline)) = append (append "Table " (append name ":")) newline) as -> by now rewrite !append_assoc'.
    assert (append "(Showing first " (append (show_z (Z.of_nat mx)) (append " entries out of " (append (show_z (Z.of_nat (List.length rows))) (append " in total)" newline)))) = append note newline) as ->
      by (unfold note; now rewrite !append_assoc').
    assert (one_line (append "Table " (append name ":"))) as H1 by (apply one_line_append; [reflexivity |]; apply one_line_append; [exact Hn | reflexivity]).
    assert (one_line note) as H2.
    { unfold note. apply one_line_append; [reflexivity |]. apply one_line_append; [apply shown_line |]. apply one_line_append; [reflexivity |].
      apply one_line_append; [apply shown_line | reflexivity]. }
    assert (forall l, (forall r, In r l -> In r (head :: rows)) -> split_lines (concat_str (map (log_row fmt w) l ++ [newline])) = map (fun r => concat_str (map (fun x => ljust w (fmt x)) r)) l ++ [""; ""]) as H3.
    { intros l Hl. rewrite concat_app. assert (map (log_row fmt w) l = map (fun l => append l newline) (map (fun r => concat_str (map (fun x => ljust w (fmt x)) r)) l)) as -> by (rewrite map_map; reflexivity).
      rewrite split_all; [reflexivity |]. apply Forall_forall. intros s Hs. apply in_map_iff in Hs as (r & <- & Hin). rewrite <- (map_map fmt (ljust w)). apply one_line_row.
      apply Forall_forall. intros s Hs. apply in_map_iff in Hs as (x & <- & Hx). apply (Hr r); auto. }
    assert (forall r, In r (head :: firstn mx rows) -> In r (head :: rows)) as H4.
    { intros r [-> | Hin]; [now left |]. right. revert Hin. generalize mx. clear. induction rows as [| x rows IH]; intros [| n] Hin; cbn in *; try contradiction. destruct Hin; auto. right. eauto. }
    rewrite concat_cons. rewrite append_assoc'. rewrite split_break; auto. f_equal. destruct (Nat.ltb mx (List.length rows)).
    - cbn [List.app]. rewrite concat_cons. rewrite append_assoc'. rewrite split_break; auto. f_equal. now apply H3.
    - cbn [List.app]. now apply H3.
  Qed.

  (** Tables with the same text have the same cells. *)
  Theorem log_readable : forall name name' head head' rows rows' (mx : nat) out out',
    List.length head = List.length head' -> List.length rows = List.length rows' -> one_line name -> one_line name' ->
    (forall r x, In r (head :: rows) \/ In r (head' :: rows') -> In x r -> one_line (fmt x) /\ String.length (fmt x) <= Utils.width (List.length head) /\ ends_blank (fmt x) = false) ->
    log_table fmt name (head :: rows) (Z.of_nat mx) = Ret out -> log_table fmt name' (head' :: rows') (Z.of_nat mx) = Ret out' ->
    concat_str out = concat_str out' ->
    name = name' /\ map fmt head = map fmt head' /\ map (map fmt) (firstn mx rows) = map (map fmt) (firstn mx rows').
  Proof.
    intros name name' head head' rows rows' mx out out' Lh Lr Hn Hn' Hx H H' E.
    assert (forall r, In r (firstn mx rows) -> In r rows) as Sub by (intros r; apply firstn_In').
    assert (forall r, In r (firstn mx rows') -> In r rows') as Sub' by (intros r; apply firstn_In').
    assert (forall r, In r rows -> List.length r = List.length head) as Len.
    { intros r Hin. unfold log_table in H. destruct (forallb _ rows) eqn:F; [| discriminate]. rewrite forallb_forall in F. apply Nat.eqb_eq. now apply F. }
    assert (forall r, In r rows' -> List.length r = List.length head') as Len'.
    { intros r Hin. unfold log_table in H'. destruct (forallb _ rows') eqn:F; [| discriminate]. rewrite forallb_forall in F. apply Nat.eqb_eq. now apply F. }
    apply logged in H; auto; [| intros r x Hin Hin'; apply (Hx r x); auto]. apply logged in H'; auto; [| intros r x Hin Hin'; apply (Hx r x); auto].
    rewrite E, H' in H. rewrite <- Lh, <- Lr in H. injection H as Et El.
    apply app_inv_head in El. injection El as Eh El. apply app_inv_tail in El.
    assert (name' = name) as ->.
    { clear -Et. revert Et. assert (forall a b, append a ":" = append b ":" -> a = b) as K; [| intros Et; now apply K].
      induction a as [| c a IH]; intros [| d b] X; cbn in X; auto.
      - injection X as _ X. destruct b; discriminate X.
      - injection X as _ X. destruct a; discriminate X.
      - injection X as -> X. f_equal. auto. }
    assert (forall r r', In r (head :: rows) -> In r' (head' :: rows') -> List.length r = List.length r' ->
      concat_str (map (fun x => ljust (Utils.width (List.length head)) (fmt x)) r') = concat_str (map (fun x => ljust (Utils.width (List.length head)) (fmt x)) r) -> map fmt r = map fmt r') as K.
    { intros r r' Hr Hr' L X. rewrite <- !(map_map fmt (ljust (Utils.width (List.length head)))) in X. symmetry in X. eapply columns_inj; [now rewrite !map_length | | exact X].
      intros s [Hs | Hs]; apply in_map_iff in Hs as (x & <- & Hs); [apply (Hx r x) | apply (Hx r' x)]; auto. }
    split; [reflexivity |]. split; [apply K; [now left | now left | exact Lh | exact Eh] |].
    assert (List.length (firstn mx rows) = List.length (firstn mx rows')) as Lf by (rewrite !firstn_length; lia).
    revert El Lf Sub Sub'. generalize (firstn mx rows) as l, (firstn mx rows') as l'. induction l as [| r l IH]; intros [| r' l'] El Lf Sub Sub'; try discriminate; [reflexivity |].
    cbn [map] in El |- *. injection El as E1 E2. f_equal.
    - apply K; [right; apply Sub; now left | right; apply Sub'; now left | | exact E1]. rewrite (Len r), (Len' r'); auto; [apply Sub'; now left | apply Sub; now left].
    - apply IH; auto; [intros x Hx'; apply Sub; now right | intros x Hx'; apply Sub'; now right].
  Qed.
End Log.

(** ** Names *)

Lemma set_len_le : forall l, NoDup l -> List.length (set_of String.eqb l) = List.length l.
Proof. intros l H. now apply set_of_count_str. Qed.
Lemma dups_spec : forall fields, NoDup fields ->
  (negb (Nat.eqb (List.length (set_of String.eqb fields)) (List.length (set_of String.eqb (map plain_name (set_of String.eqb fields))))) = true <->
   exists x y, In x fields /\ In y fields /\ x <> y /\ plain_name x = plain_name y).
Proof.
  intros fields N. assert (set_of String.eqb fields = fields) as ->.
  { induction fields as [| x l IH] using rev_ind; [reflexivity |]. rewrite set_of_snoc. apply NoDup_remove in N as [N1 N2]. rewrite app_nil_r in N1, N2.
    rewrite (IH N1). unfold sadd. destruct (smem String.eqb l x) eqn:E; [| reflexivity]. exfalso. apply N2. unfold smem in E. apply existsb_exists in E as (y & Hy & E).
    apply String.eqb_eq in E as ->. exact Hy. }
  rewrite negb_true_iff, Nat.eqb_neq. pose proof (set_of_count_str (map plain_name fields)) as [A B]. rewrite map_length in A, B. split.
  - intros H. assert (~ NoDup (map plain_name fields)) as D by (rewrite <- B; lia).
    clear -N D. induction fields as [| a l IH]; [exfalso; apply D; constructor |]. inversion N; subst.
    destruct (in_dec string_dec (plain_name a) (map plain_name l)) as [Hin | Hin].
    + apply in_map_iff in Hin as (b & E & Hb). exists a, b. split; [now left |]. split; [now right |]. split; [intros -> ; contradiction | auto].
    + destruct IH as (x & y & Hx & Hy & Hne & E); auto.
      * intros N'. apply D. now constructor.
      * exists x, y. split; [now right |]. split; [now right |]. auto.
  - intros (x & y & Hx & Hy & Hne & E) L. symmetry in L. apply B in L. apply Hne. clear -L Hx Hy E.
    induction fields as [| a l IH]; [contradiction |]. cbn [map] in L. inversion L; subst.
    destruct Hx as [-> | Hx], Hy as [-> | Hy]; auto.
    + exfalso. apply H1. rewrite E. now apply in_map.
    + exfalso. apply H1. rewrite <- E. now apply in_map.
Qed.

Theorem case_space : forall f, (forall t ts, In (t, Fields ts) (f_decl f) -> NoDup (tfields ts)) ->
  match find_case_space_duplicates f with
  | Raise => exists t, In (t, Generic) (f_decl f)
  | Ret l => (forall t, ~ In (t, Generic) (f_decl f)) /\
     forall t fields, In (t, fields) l <-> exists ts, In (t, Fields ts) (f_decl f) /\ fields = tfields ts /\
       exists x y, In x fields /\ In y fields /\ x <> y /\ plain_name x = plain_name y
  end.
Proof.
  intros f N. unfold find_case_space_duplicates.
  assert (match mapO (fun td : string * tdecl => match snd td with Generic => Raise | Fields ts => Ret (fst td, tfields ts) end) (f_decl f) with
          | Raise => exists t, In (t, Generic) (f_decl f)
          | Ret l => (forall t, ~ In (t, Generic) (f_decl f)) /\ forall t fields, In (t, fields) l <-> exists ts, In (t, Fields ts) (f_decl f) /\ fields = tfields ts
          end) as H.
  { clear N. induction (f_decl f) as [| [t d] l IH]; cbn [mapO].
    - split; [intros t [] |]. intros t fields. split; [intros [] | intros (ts & [] & _)].
    - cbn [fst snd]. destruct d as [| ts]; [exists t; now left |]. cbn [bindO]. destruct (mapO _ l) as [r |]; cbn [bindO]; [| destruct IH as (u & Hu); exists u; now right].
      destruct IH as [IH1 IH2]. split; [intros u [E | Hin]; [discriminate E | exact (IH1 u Hin)] |]. intros u fields. split.
      + intros [E | Hin]; [injection E as <- <-; exists ts; split; [now left | reflexivity] |]. apply IH2 in Hin as (us & Hin & ->). exists us. split; [now right | reflexivity].
      + intros (us & [E | Hin] & ->); [injection E as -> ->; now left |]. right. apply IH2. eauto. }
  destruct (mapO _ (f_decl f)) as [l |]; cbn [bindO]; [| exact H]. destruct H as [H1 H2]. split; [exact H1 |]. intros t fields. rewrite filter_In, H2. cbn [snd]. split.
  - intros [(ts & Hin & ->) E]. apply dups_spec in E; [| eapply N; eauto]. eauto.
  - intros (ts & Hin & -> & E). split; [eauto |]. apply dups_spec; [eapply N; eauto | exact E].
Qed.

(** ** AMPL *)

Lemma handed_all : forall takes sets tables h h', hand_over takes sets tables h = (true, h') ->
  h' = rev (map (fun ta => (snd ta, dget String.eqb sets (fst ta))) tables) ++ h.
Proof.
  intros takes sets. induction tables as [| [t a] tables IH]; intros h h' H; cbn [hand_over] in H; [now injection H as <- |].
  destruct (takes h a (dget String.eqb sets t)); [| discriminate]. rewrite (IH _ _ H). cbn [map rev fst snd]. now rewrite <- app_assoc.
Qed.
Lemma handed_some : forall takes sets tables h h', hand_over takes sets tables h = (false, h') ->
  exists before t a after, tables = before ++ (t, a) :: after /\ takes h' a (dget String.eqb sets t) = false /\
    h' = rev (map (fun ta => (snd ta, dget String.eqb sets (fst ta))) before) ++ h.
Proof.
  intros takes sets. induction tables as [| [t a] tables IH]; intros h h' H; cbn [hand_over] in H; [discriminate |].
  destruct (takes h a (dget String.eqb sets t)) eqn:E.
  - destruct (IH _ _ H) as (b & u & c & r & -> & E1 & ->). exists ((t, a) :: b), u, c, r. split; [reflexivity |]. split; [exact E1 |].
    cbn [map rev fst snd]. now rewrite <- app_assoc.
  - injection H as <-. exists [], t, a, tables. auto.
Qed.
Lemma visited : forall (dat : list (string * aframe)) order, NoDup (map fst dat) -> NoDup order -> (forall t, In t (map fst dat) -> In t order) ->
  Permutation (flat_map (fun t => match dget String.eqb dat t with Some a => [(t, a)] | None => [] end) order) dat.
Proof.
  intros dat order Nd No Hin. apply NoDup_Permutation.
  - clear Hin. induction order as [| t order IH]; [constructor |]. inversion No; subst. cbn [flat_map]. destruct (dget String.eqb dat t) as [a |]; cbn [List.app]; [| now apply IH].
    constructor; [| now apply IH]. intros H. apply in_flat_map in H as (u & Hu & H). destruct (dget String.eqb dat u); [| contradiction]. destruct H as [E | []].
    injection E as -> _. contradiction.
  - now apply NoDup_map_inv in Nd.
  - intros [t a]. rewrite in_flat_map. assert (dget String.eqb dat t = Some a <-> In (t, a) dat) as K.
    { split; [intros H; apply dget_In in H as (k & E & H); apply String.eqb_eq in E as ->; exact H |]. intros H.
      destruct (dget String.eqb dat t) as [b |] eqn:E.
      - apply dget_In in E as (k & E & Hb). apply String.eqb_eq in E as ->. f_equal. clear -Nd H Hb. induction dat as [| [x y] l IH]; [contradiction |]. cbn [map fst] in Nd.
        inversion Nd; subst. destruct H as [E | H], Hb as [E' | Hb]; auto.
        + congruence.
        + injection E as -> ->. exfalso. apply H2. now apply (in_map fst) in Hb.
        + injection E' as -> ->. exfalso. apply H2. now apply (in_map fst) in H.
      - exfalso. clear -E H. induction dat as [| [x y] l IH]; [contradiction |]. cbn [dget] in E. destruct (String.eqb x t) eqn:Ex; [discriminate |]. destruct H as [H | H]; [| auto].
        injection H as -> ->. rewrite String.eqb_refl in Ex. discriminate. }
    split.
    + intros (u & Hu & H). destruct (dget String.eqb dat u) as [b |] eqn:E; [| contradiction]. destruct H as [X | []]. injection X as -> ->. now apply K.
    + intros H. exists t. split; [apply Hin; now apply (in_map fst) in H |]. apply K in H. rewrite H. now left.
Qed.

(** ** Parameters *)

Lemma dict_last : forall (rows : list (value * value)) k, dget pyeq (dict_of pyeq rows) k = last_bind pyeq rows k.
Proof. intros rows k. unfold dict_of. rewrite (dget_dupdate pyeq pyeq_refl pyeq_sym pyeq_trans). now destruct (last_bind pyeq rows k). Qed.
Lemma last_some : forall (rows : list (value * value)) k v, last_bind pyeq rows k = Some v <->
  exists before k' after, rows = before ++ (k', v) :: after /\ pyeq k' k = true /\ forall k2 w, In (k2, w) after -> pyeq k2 k = false.
Proof.
  induction rows as [| [a b] rows IH]; intros k v; cbn [last_bind]; [split; [discriminate | intros ([| ? ?] & ? & ? & E & _); discriminate E] |].
  destruct (last_bind pyeq rows k) as [w |] eqn:E.
  - split.
    + intros H. injection H as ->. apply IH in E as (bf & k' & af & -> & A & B). exists ((a, b) :: bf), k', af. auto.
    + intros (bf & k' & af & Er & A & B). destruct bf as [| x bf]; cbn [List.app] in Er.
      * injection Er as -> -> ->. apply IH in E as (bf' & k2 & af' & -> & A' & _). rewrite (B k2 w) in A'; [discriminate |]. apply in_or_app. right. now left.
      * injection Er as <- ->. rewrite <- E. apply IH. exists bf, k', af. auto.
  - assert (forall k2 w, In (k2, w) rows -> pyeq k2 k = false) as No.
    { intros k2 w Hin. destruct (pyeq k2 k) eqn:Q; auto. exfalso. clear IH a b v. induction rows as [| [a b] rows IH]; [contradiction |]. cbn [last_bind] in E.
      destruct (last_bind pyeq rows k) eqn:E'; [discriminate |]. destruct (pyeq a k) eqn:Qa; [discriminate |]. destruct Hin as [X | Hin]; [congruence | now apply IH]. }
    destruct (pyeq a k) eqn:Q.
    + split.
      * intros H. injection H as ->. exists [], a, rows. auto.
      * intros (bf & k' & af & Er & A & B). destruct bf as [| x bf]; cbn [List.app] in Er; [now injection Er as -> -> -> |].
        injection Er as <- ->. exfalso. rewrite (No k' v) in A; [discriminate |]. apply in_or_app. right. now left.
    + split; [discriminate |]. intros (bf & k' & af & Er & A & B). destruct bf as [| x bf]; cbn [List.app] in Er; [injection Er as -> -> ->; congruence |].
      injection Er as <- ->. rewrite (No k' v) in A; [discriminate |]. apply in_or_app. right. now left.
Qed.
Lemma last_none : forall (rows : list (value * value)) k, last_bind pyeq rows k = None <-> forall k2 w, In (k2, w) rows -> pyeq k2 k = false.
Proof.
  induction rows as [| [a b] rows IH]; intros k; cbn [last_bind]; [split; [intros _ k2 w [] | reflexivity] |].
  destruct (last_bind pyeq rows k) as [w |] eqn:E.
  - split; [discriminate |]. intros H. assert (None = Some w) as X; [| discriminate X]. rewrite <- E. symmetry. apply IH. intros k2 w2 Hin. eapply H. right. exact Hin.
  - destruct (pyeq a k) eqn:Q.
    + split; [discriminate |]. intros H. rewrite (H a b) in Q; [discriminate | now left].
    + split; [| reflexivity]. intros _ k2 w [X | Hin]; [now injection X as <- <- |]. eapply (proj1 (IH k) E); eauto.
Qed.
(** Every key of the dict is a key of a row, and the other way round up to equality. *)
Lemma dict_strings : forall (rows : list (value * value)), forallb (fun kv => stringish (fst kv)) (dict_of pyeq rows) = forallb (fun kv => stringish (fst kv)) rows.
Proof.
  intros rows. unfold dict_of. assert (forall (d : list (value * value)), forallb (fun kv => stringish (fst kv)) (dupdate pyeq d rows) = forallb (fun kv => stringish (fst kv)) d && forallb (fun kv => stringish (fst kv)) rows) as H.
  { induction rows as [| [k v] rows IH]; intros d; cbn [dupdate fold_left forallb]; [now rewrite andb_true_r |].
    unfold dupdate in IH |- *. cbn [fold_left]. rewrite IH. cbn [fst snd]. rewrite andb_assoc. f_equal. clear IH rows.
    induction d as [| [a b] d IH]; cbn [dset forallb]; [now rewrite andb_comm |]. destruct (pyeq a k) eqn:Q; cbn [forallb fst].
    - assert (stringish a = stringish k) as ->. { destruct a; destruct k; try reflexivity; cbn in Q; try discriminate Q; destruct b0; discriminate Q. }
      destruct (stringish k); cbn [andb]; [now rewrite andb_true_r | reflexivity].
    - rewrite IH. now rewrite andb_assoc. }
  rewrite H. reflexivity.
Qed.

Section Full.
  Variable date_of : value -> option Z.

  (** The default value of a declared parameter, dates made dates. *)
  Definition the_default (f : factory) (k v : value) : Prop :=
    exists td dv, dget pyeq (f_params f) k = Some (td, dv) /\
      ((exists dt d, td = Some dt /\ datetime dt = true /\ adjust date_of dv = Some d /\ v = VDate d) \/
       (~ (exists dt d, td = Some dt /\ datetime dt = true /\ adjust date_of dv = Some d) /\ v = dv)).

  Lemma full_get : forall f tb r, create_full date_of f tb = Some r -> forall k v, dget pyeq r k = Some v <->
    last_bind pyeq tb k = Some v \/ last_bind pyeq tb k = None /\ the_default f k v.
  Proof.
    intros f tb r H k v. unfold create_full in H. destruct (_ && _); [| discriminate]. injection H as <-.
    rewrite (dget_dupdate pyeq pyeq_refl pyeq_sym pyeq_trans). destruct (last_bind pyeq tb k) as [w |].
    - split; [auto | intros [H | [H _]]; [exact H | discriminate H]].
    - assert (dget pyeq (map (fun p => (fst p, param_default date_of p)) (f_params f)) k = Some v <-> the_default f k v) as ->; [| split; [auto | intros [X | [_ X]]; [discriminate X | exact X]]].
      unfold the_default. induction (f_params f) as [| [a [td dv]] l IH]; cbn [map dget fst]; [split; [discriminate | intros (? & ? & X & _); discriminate X] |].
      destruct (pyeq a k); [| exact IH]. unfold param_default. cbn [fst snd]. split.
      + intros E. injection E as <-. exists td, dv. split; [reflexivity |]. destruct td as [dt |].
        * destruct (adjust date_of dv) as [d |] eqn:Ed; [destruct (datetime dt) eqn:Et |].
          -- left. exists dt, d. auto.
          -- right. split; auto. intros (dt' & d' & X & Y & _). congruence.
          -- right. split; auto. intros (dt' & d' & _ & _ & X). congruence.
        * right. split; [| now destruct (adjust date_of dv)]. intros (dt' & d' & X & _). discriminate X.
      + intros (td' & dv' & E & H). injection E as <- <-. destruct H as [(dt & d & -> & Et & Ed & ->) | [Hn ->]].
        * now rewrite Ed, Et.
        * destruct (adjust date_of dv) as [d |] eqn:Ed; [| reflexivity]. destruct td as [dt |]; [| reflexivity]. destruct (datetime dt) eqn:Et; [| reflexivity].
          exfalso. apply Hn. exists dt, d. auto.
  Qed.
End Full.

Lemma pan_rows : forall fr name data rows,
  Forall2 (fun row kv => cell_of (fr_cols fr) (snd row) name = Some (fst kv) /\ cell_of (fr_cols fr) (snd row) data = Some (snd kv)) (fr_rows fr) rows ->
  pan_parameters fr name data = Some rows.
Proof.
  intros fr name data rows H. unfold pan_parameters. induction H as [| r [k v] l m [A B] _ IH]; [reflexivity |]. cbn [map_opt fst snd] in *. now rewrite A, B, IH.
Qed.
Lemma dict_keys : forall (rows d : list (value * value)), keys_distinct pyeq (map fst d) -> keys_distinct pyeq (map fst (dupdate pyeq d rows)).
Proof.
  induction rows as [| [k v] rows IH]; intros d H; [exact H |]. unfold dupdate in *. cbn [fold_left]. apply IH. now apply keys_distinct_dset.
Qed.
Lemma dict_again : forall (rows : list (value * value)) k, last_bind pyeq (dict_of pyeq rows) k = last_bind pyeq rows k.
Proof.
  intros rows k. rewrite (last_bind_distinct pyeq pyeq_sym pyeq_trans); [apply dict_last |]. apply dict_keys. exact I.
Qed.
Lemma dict_distinct : forall (rows : list (value * value)), keys_distinct pyeq (map fst rows) -> dict_of pyeq rows = rows.
Proof.
  intros rows H. unfold dict_of. assert (forall d : list (value * value), keys_distinct pyeq (map fst (d ++ rows)) -> dupdate pyeq d rows = d ++ rows) as K; [| now apply K].
  clear H. induction rows as [| [k v] rows IH]; intros d H; [symmetry; apply app_nil_r |]. unfold dupdate in *. cbn [fold_left fst snd].
  assert (dset pyeq d k v = d ++ [(k, v)]) as ->.
  { clear IH. induction d as [| [a b] d IHd]; [reflexivity |]. cbn [dset List.app]. cbn [map List.app keys_distinct fst] in H. destruct H as [H1 H2].
    rewrite (H1 k), (IHd H2); [reflexivity |]. rewrite map_app. apply in_or_app. right. now left. }
  rewrite IH; rewrite <- app_assoc; [reflexivity | exact H].
Qed.
