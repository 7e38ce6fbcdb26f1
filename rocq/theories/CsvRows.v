(** * Which column is read for a field. *)
From Coq Require Import ZArith Bool List String Arith Lia Permutation.
From Verif Require Import PyVal PyValFacts PyDict PyDictFacts PyStr ListFacts TypeDict Data FindTypes FindTypesFacts FK Obj ObjFacts ObjMore
  Factory FactoryFacts InfIO InfIOFacts Params Names NamesFacts Utils UtilsMore Json ObjRows JsonFacts JsonDups TripFacts Csv CsvFacts.
Import ListNotations.
Local Open Scope string_scope.
Local Open Scope list_scope.

(** The header has one column for the field, whatever its spelling. *)
Definition one_column (h : list string) (x : string) : Prop :=
  exists j k, nth_error h j = Some k /\ lower k = lower x /\
    forall j' k', nth_error h j' = Some k' -> lower k' = lower x -> j' = j.

(** The line holds the cells [r], given in the order of the fields; a line may be
    too short. *)
Definition line_shows (ts : tschema) (h line : list string) (r : list value) : Prop :=
  List.length line <= List.length h /\ List.length r = List.length (tfields ts) /\
  forall i x j k, nth_error (tfields ts) i = Some x -> nth_error h j = Some k -> lower k = lower x ->
    nth_error r i = Some (match nth_error line j with Some s => VStr s | None => VNone end).

Lemma seqb_trans : forall a b c : string, String.eqb a b = true -> String.eqb b c = true -> String.eqb a c = true.
Proof. intros a b c A B. apply String.eqb_eq in A, B. subst. apply String.eqb_refl. Qed.

Lemma dict_last : forall {V} (l : list (string * V)) k, dget String.eqb (dict_of String.eqb l) k = last_bind String.eqb l k.
Proof.
  intros V l k. unfold dict_of. rewrite (dget_dupdate String.eqb String.eqb_refl String.eqb_sym seqb_trans).
  now destruct (last_bind String.eqb l k).
Qed.

Lemma in_keys : forall {V} (d : list (string * V)) k, In k (map fst d) <-> dget String.eqb d k <> None.
Proof.
  induction d as [| [k' v] d IH]; intros k; simpl; [tauto |]. destruct (String.eqb_spec k' k) as [-> | N].
  - split; [discriminate | auto].
  - rewrite <- IH. intuition.
Qed.

Lemma last_none : forall {V} (l : list (string * V)) k, last_bind String.eqb l k = None <-> ~ In k (map fst l).
Proof.
  induction l as [| [k' v] l IH]; intros k; simpl; [tauto |]. specialize (IH k).
  destruct (last_bind String.eqb l k) as [w |].
  - split; [discriminate |]. intros H. exfalso. apply H. right. destruct (in_dec string_dec k (map fst l)) as [Hi | Hi]; auto. apply IH in Hi. discriminate.
  - destruct (String.eqb_spec k' k) as [-> | N]; split; try discriminate; intuition.
Qed.

Lemma dict_keys : forall {V} (l : list (string * V)),
  NoDup (map fst (dict_of String.eqb l)) /\ forall k, In k (map fst (dict_of String.eqb l)) <-> In k (map fst l).
Proof.
  intros V l. split.
  - apply (keys_distinct_NoDup String.eqb String.eqb_eq). unfold dict_of. apply keys_distinct_dupdate. exact I.
  - intros k. rewrite in_keys, dict_last. destruct (in_dec string_dec k (map fst l)) as [H | H].
    + split; auto. intros _ E. apply last_none in E. contradiction.
    + apply last_none in H as E. rewrite E. tauto.
Qed.

Lemma filter_one {A} (p : A -> bool) : forall l k, NoDup l -> In k l -> p k = true -> (forall k', In k' l -> p k' = true -> k' = k) -> filter p l = [k].
Proof.
  induction l as [| a l IH]; intros k N Hk Hp Hu; [contradiction |]. inversion N as [| ? ? Ha N']; subst. simpl. destruct (p a) eqn:E.
  - assert (a = k) as -> by (apply Hu; simpl; auto). f_equal. apply JsonDups.filter_none. intros x Hx. apply not_true_is_false. intros Ex.
    apply Ha. rewrite <- (Hu x); simpl; auto.
  - destruct Hk as [<- | Hk]; [congruence |]. apply IH; auto. intros; apply Hu; simpl; auto.
Qed.

Lemma short_length : forall n r, List.length r <= n -> List.length (short n r) = n.
Proof. intros n r H. unfold short. rewrite app_length, map_length, repeat_length. lia. Qed.

Lemma short_nth : forall n r j, List.length r <= n -> j < n ->
  nth_error (short n r) j = Some (match nth_error r j with Some s => VStr s | None => VNone end).
Proof.
  intros n r j H Hj. unfold short. destruct (nth_error r j) as [s |] eqn:E.
  - rewrite nth_error_app1 by (rewrite map_length; apply nth_error_Some; congruence). now rewrite nth_error_map, E.
  - apply nth_error_None in E. rewrite nth_error_app2 by (now rewrite map_length). rewrite map_length.
    destruct (nth_error (repeat VNone (n - List.length r)) (j - List.length r)) as [v |] eqn:E'.
    + apply nth_error_In, repeat_spec in E'. now subst.
    + apply nth_error_None in E'. rewrite repeat_length in E'. lia.
Qed.

(** The last binding of a name that occurs once. *)
Lemma last_once : forall {V} (h : list string) (l : list V) j k v, List.length h = List.length l ->
  nth_error h j = Some k -> nth_error l j = Some v -> (forall j', nth_error h j' = Some k -> j' = j) ->
  last_bind String.eqb (combine h l) k = Some v.
Proof.
  induction h as [| k0 h IH]; intros [| v0 l] j k v L Hk Hv U; try discriminate; [destruct j; discriminate |].
  injection L as L. cbn [combine last_bind]. destruct j as [| j].
  - injection Hk as ->. injection Hv as ->.
    assert (last_bind String.eqb (combine h l) k = None) as ->; [| now rewrite String.eqb_refl].
    apply last_none. intros H. rewrite map_fst_combine in H by auto. apply In_nth_error in H as [j H]. specialize (U (S j) H). discriminate.
  - cbn [nth_error] in Hk, Hv. rewrite (IH l j k v); auto. intros j' H. specialize (U (S j') H). now injection U.
Qed.

Section Columns.
  Variable date_of : value -> option Z.
  Variable float_of : value -> option value.
  Variable f : factory.

  Let cell := csv_cell date_of float_of f.

  Lemma mapO_ext {A B} (g g' : A -> outcome B) : forall l, (forall x, In x l -> g x = g' x) -> mapO g l = mapO g' l.
  Proof. induction l as [| x l IH]; simpl; intros H; auto. rewrite H by auto. now rewrite IH by auto. Qed.

  Theorem row_found : forall t ts h line r, (forall x, In x (tfields ts) -> one_column h x) -> line_shows ts h line r ->
    header_row date_of float_of f t ts h line = mapO (fun xv => cell t (fst xv) (snd xv)) (combine (tfields ts) r).
  Proof.
    intros t ts h line r Hone (Hlen & Hr & Hs). unfold header_row, cell.
    assert (Nat.ltb (List.length h) (List.length line) = false) as -> by (apply Nat.ltb_ge; auto).
    cbv zeta. set (cells := short (List.length h) line).
    assert (List.length cells = List.length h) as Lc by (now apply short_length).
    set (row := dict_of String.eqb (combine h cells)).
    assert (map fst (combine h cells) = h) as Eh by (now apply map_fst_combine).
    destruct (dict_keys (combine h cells)) as [Nk Ik]. fold row in Nk, Ik. rewrite Eh in Ik.
    assert (forall i x, nth_error (tfields ts) i = Some x -> exists k v, columns_of (map fst row) x = [k] /\ dget String.eqb row k = Some v /\ nth_error r i = Some v) as H.
    { intros i x Hi. destruct (Hone x) as (j & k & Hj & Hl & Hu); [eapply nth_error_In; eauto |].
      exists k, (match nth_error line j with Some s => VStr s | None => VNone end). split; [| split].
      - unfold columns_of. apply filter_one; auto.
        + apply Ik. eapply nth_error_In; eauto.
        + apply String.eqb_eq. auto.
        + intros k' Hk' E. apply String.eqb_eq in E. apply Ik in Hk'. apply In_nth_error in Hk' as [j' Hj'].
          pose proof (Hu _ _ Hj' E). congruence.
      - unfold row. rewrite dict_last. apply (last_once h cells j); auto.
        + unfold cells. apply short_nth; auto. apply nth_error_Some. congruence.
        + intros j' Hj'. eapply Hu; eauto.
      - eapply Hs; eauto. }
    assert (forallb (fun x => Nat.eqb (List.length (columns_of (map fst row) x)) 1) (tfields ts) = true) as ->.
    { apply forallb_forall. intros x Hx. apply In_nth_error in Hx as [i Hi]. destruct (H i x Hi) as (k & v & -> & _). reflexivity. }
    clear Hs Hone. revert r Hr H. generalize (tfields ts) as fs. clear - row. induction fs as [| x fs IH]; intros [| v r] L H; try discriminate; auto.
    cbn [mapO combine fst snd]. destruct (H 0 x eq_refl) as (k & v' & -> & -> & E). injection E as <-.
    destruct (csv_cell _ _ _ _ _ _); auto. rewrite (IH r); auto. intros i y Hi. exact (H (S i) y Hi).
  Qed.

  (** A field without column, or with columns spelled differently. *)
  Theorem row_refused : forall t ts h line x, In x (tfields ts) ->
    (forall k, In k h -> lower k <> lower x) \/ (exists k k', In k h /\ In k' h /\ k <> k' /\ lower k = lower x /\ lower k' = lower x) ->
    header_row date_of float_of f t ts h line = Raise.
  Proof.
    intros t ts h line x Hx Hbad. unfold header_row. destruct (Nat.ltb (List.length h) (List.length line)) eqn:El; auto.
    apply Nat.ltb_ge in El. cbv zeta. set (row := dict_of String.eqb _).
    destruct (dict_keys (combine h (short (List.length h) line))) as [Nk Ik]. fold row in Nk, Ik.
    rewrite map_fst_combine in Ik by (symmetry; now apply short_length).
    assert (List.length (columns_of (map fst row) x) <> 1) as H.
    { unfold columns_of. intros E. destruct (filter _ (map fst row)) as [| a [| b l]] eqn:Ef; try discriminate.
      assert (forall k, In k h /\ lower k = lower x <-> k = a) as U.
      { intros k. rewrite <- Ik. transitivity (In k [a]); [| simpl; intuition]. rewrite <- Ef, filter_In, String.eqb_eq. reflexivity. }
      destruct Hbad as [Hno | (k & k' & A & B & C & D & G)].
      - destruct (proj2 (U a) eq_refl) as [Ha Hl]. exact (Hno a Ha Hl).
      - apply C. transitivity a; [apply U; auto | symmetry; apply U; auto]. }
    assert (forallb (fun x => Nat.eqb (List.length (columns_of (map fst row) x)) 1) (tfields ts) = false) as ->; auto.
    apply not_true_is_false. intros E. rewrite forallb_forall in E. specialize (E x Hx). apply Nat.eqb_eq in E. contradiction.
  Qed.

  Lemma mapO_raise {A B} (g : A -> outcome B) : forall l x, In x l -> g x = Raise -> mapO g l = Raise.
  Proof.
    induction l as [| y l IH]; simpl; intros x H E; [contradiction |]. destruct H as [-> | H]; [now rewrite E |]. destruct (g y); auto. now rewrite (IH x H E).
  Qed.

  Theorem rows_found : forall t ts h body rs, (forall x, In x (tfields ts) -> one_column h x) ->
    Forall2 (line_shows ts h) (filter nonblank body) rs ->
    csv_rows date_of float_of f true t ts (h :: body) =
    mapO (fun r => mapO (fun xv => cell t (fst xv) (snd xv)) (combine (tfields ts) r)) rs.
  Proof.
    intros t ts h body rs Ho H. unfold csv_rows. induction H as [| line r lines rs Hr _ IH]; auto. cbn [mapO].
    rewrite (row_found t ts h line r Ho Hr). destruct (mapO _ (combine (tfields ts) r)); auto. now rewrite IH.
  Qed.

  Theorem rows_refused : forall t ts h body x line, In x (tfields ts) -> In line body -> line <> [] ->
    (forall k, In k h -> lower k <> lower x) \/ (exists k k', In k h /\ In k' h /\ k <> k' /\ lower k = lower x /\ lower k' = lower x) ->
    csv_rows date_of float_of f true t ts (h :: body) = Raise.
  Proof.
    intros t ts h body x line Hx Hl Hne Hbad. unfold csv_rows. apply mapO_raise with (x := line); [| now apply row_refused with (x := x)].
    apply filter_In. split; auto. destruct line; [contradiction | reflexivity].
  Qed.

  (** Without header: by position. *)
  Theorem plain_found : forall t ts body,
    (forall line, In line body -> line <> [] -> List.length line <= List.length (tfields ts)) ->
    csv_rows date_of float_of f false t ts body =
    mapO (fun line => mapO (fun xv => cell t (fst xv) (snd xv)) (combine (tfields ts) (short (List.length (tfields ts)) line))) (filter nonblank body).
  Proof.
    intros t ts body H. unfold csv_rows. apply mapO_ext. intros line Hl. apply filter_In in Hl as [Hl Hn]. unfold plain_row.
    assert (Nat.ltb (List.length (tfields ts)) (List.length line) = false) as ->; auto. apply Nat.ltb_ge. apply H; auto. now destruct line.
  Qed.

  Theorem plain_refused : forall t ts body line, In line body -> List.length (tfields ts) < List.length line ->
    csv_rows date_of float_of f false t ts body = Raise.
  Proof.
    intros t ts body line Hl Hlen. unfold csv_rows. apply mapO_raise with (x := line).
    - apply filter_In. split; auto. destruct line; [simpl in Hlen; lia | reflexivity].
    - unfold plain_row. apply Nat.ltb_lt in Hlen. now rewrite Hlen.
  Qed.

  Theorem header_refused : forall t ts h body line, In line body -> List.length h < List.length line ->
    csv_rows date_of float_of f true t ts (h :: body) = Raise.
  Proof.
    intros t ts h body line Hl Hlen. unfold csv_rows. apply mapO_raise with (x := line).
    - apply filter_In. split; auto. destruct line; [simpl in Hlen; lia | reflexivity].
    - unfold header_row. apply Nat.ltb_lt in Hlen. now rewrite Hlen.
  Qed.
End Columns.
