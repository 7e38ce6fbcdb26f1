(** * Facts about TicDat construction, copying and comparison. *)
From Coq Require Import ZArith Bool List String Arith Lia Permutation.
From Verif Require Import PyVal PyValFacts PyDict PyDictFacts ListFacts Data FindTypes FindTypesFacts FK FKFacts
  GraphFacts Obj.
Import ListNotations.
Local Open Scope string_scope.
Local Open Scope list_scope.

(** ** Specification vocabulary *)

(** The cell of field [f] in a data row. *)
Definition cell_at (ts : tschema) (r : row) (f : string) : option value := dget String.eqb (combine (tdf ts) r) f.

(** The value a dict row gives to a field, else [d]. *)
Definition given (l : list (string * value)) (f : string) (d : value) : value :=
  match last_bind String.eqb l f with Some v => v | None => d end.

(** [r] is the row that [x] describes. *)
Definition fits (dv : defaults) (t : string) (ts : tschema) (x : rowin) (r : row) : Prop :=
  match x with
  | RDict l => (forall f v, In (f, v) l -> In f (tdf ts)) /\ List.length r = List.length (tdf ts) /\
      forall f, In f (tdf ts) -> cell_at ts r f =
        Some (given l f (match dget2 dv t f with Some d => d | None => VNum (of_int 0) end))
  | RSeq l => List.length l = List.length (tdf ts) /\ r = l
  | RAtom v => List.length (tdf ts) = 1 /\ r = [v]
  end.

(** The shape of a row with the given fields. *)
Definition has_shape (fields : list string) (x : rowin) : Prop :=
  match x with
  | RDict l => forall f v, In (f, v) l -> In f fields
  | RSeq l => List.length l = List.length fields
  | RAtom _ => List.length fields = 1
  end.

(** A one-field key is a scalar, a longer one a tuple. *)
Definition packed (l : list value) : pkey := match l with [v] => KAtom v | _ => KTup l end.

(** Key and data that a row of a list describes, for a keyed table. *)
Definition fits_keyed (ts : tschema) (x : rowin) (kr : pkey * row) : Prop :=
  exists cells, List.length cells = List.length (tpk ts ++ tdf ts) /\
    match x with
    | RDict l => (forall f v, In (f, v) l -> In f (tpk ts ++ tdf ts)) /\
                 cells = map (fun f => dget_or String.eqb l f (VNum (of_int 0))) (tpk ts ++ tdf ts)
    | RSeq l => cells = l
    | RAtom v => cells = [v]
    end /\
    fst kr = packed (firstn (List.length (tpk ts)) cells) /\ snd kr = skipn (List.length (tpk ts)) cells.

Definition key_shape (ts : tschema) (k : pkey) : Prop :=
  match k with
  | KAtom _ => List.length (tpk ts) = 1
  | KTup l => List.length l = List.length (tpk ts)
  end.

Definition good_input (ts : tschema) (inp : tablein) : Prop :=
  match tpk ts, inp with
  | [], TRows rows => forall x, In x rows -> has_shape (tdf ts) x
  | [], TDict l => forall k x, In (k, x) l -> has_shape (tdf ts) (key_as_row k)
  | _, TRows rows => forall x, In x rows -> has_shape (tpk ts ++ tdf ts) x
  | _, TDict l => forall k x, In (k, x) l -> key_shape ts k /\ has_shape (tdf ts) x
  end.

(** Keys equal under Python's [==]. *)
Definition canon_key (k : pkey) : pkey :=
  match k with KAtom v => KAtom (canon v) | KTup l => KTup (map canon l) end.

Definition no_equal_keys (l : list pkey) : Prop := NoDup (map canon_key l).

(** What a table built from an input looks like. *)
Definition holds (dv : defaults) (t : string) (ts : tschema) (inp : tablein) (tb : otable) : Prop :=
  match tpk ts, inp with
  | [], TRows rows => exists l, tb = OListed l /\ Forall2 (fits dv t ts) rows l
  | [], TDict kx => exists l, tb = OListed l /\ Forall2 (fits dv t ts) (map (fun p => key_as_row (fst p)) kx) l
  | _, TDict kx => exists l, tb = OKeyed l /\
      Forall2 (fun p q => fst q = fst p /\ fits dv t ts (snd p) (snd q)) kx l
  | _, TRows rows => exists l pairs, tb = OKeyed l /\ Forall2 (fits_keyed ts) rows pairs /\
      no_equal_keys (map fst l) /\ (forall k, dget pkey_eqb l k = last_bind pkey_eqb pairs k) /\
      (forall kr, In kr l -> In (fst kr) (map fst pairs))
  end.

(** ** Keys *)

Lemma pkey_eqb_iff : forall a b, pkey_eqb a b = true <-> canon_key a = canon_key b.
Proof.
  intros [a | a] [b | b]; simpl; try (split; discriminate).
  - rewrite pyeq_iff. split; [now intros -> | now injection 1].
  - change (list_eqb pyeq a b) with (key_pyeq a b). rewrite key_pyeq_iff. split; [now intros -> | now injection 1].
Qed.
Lemma pkey_eqb_refl : forall a, pkey_eqb a a = true.
Proof. intros. now apply pkey_eqb_iff. Qed.
Lemma pkey_eqb_sym : forall a b, pkey_eqb a b = pkey_eqb b a.
Proof.
  intros a b. destruct (pkey_eqb a b) eqn:E, (pkey_eqb b a) eqn:F; auto.
  - apply pkey_eqb_iff in E. symmetry in E. apply pkey_eqb_iff in E. congruence.
  - apply pkey_eqb_iff in F. symmetry in F. apply pkey_eqb_iff in F. congruence.
Qed.
Lemma pkey_eqb_trans : forall a b c, pkey_eqb a b = true -> pkey_eqb b c = true -> pkey_eqb a c = true.
Proof. intros a b c H1 H2. apply pkey_eqb_iff in H1, H2. apply pkey_eqb_iff. congruence. Qed.

Lemma no_equal_keys_iff : forall l, keys_distinct pkey_eqb l <-> no_equal_keys l.
Proof.
  unfold no_equal_keys. induction l as [| k l IH]; simpl.
  - split; [constructor | auto].
  - rewrite IH. split.
    + intros [H1 H2]. constructor; auto. intros Hc. apply in_map_iff in Hc as (k' & E & Hin).
      apply H1 in Hin. assert (pkey_eqb k k' = true) by (now apply pkey_eqb_iff). congruence.
    + intros H. inversion H as [| ? ? H1 H2]; subst. split; auto. intros k' Hin.
      destruct (pkey_eqb k k') eqn:E; auto. exfalso. apply H1. apply pkey_eqb_iff in E. rewrite E.
      now apply in_map.
Qed.

(** ** map_opt *)

Lemma map_opt_Forall2 {A B} (f : A -> option B) : forall l r,
  map_opt f l = Some r <-> Forall2 (fun x y => f x = Some y) l r.
Proof.
  induction l as [| x l IH]; intros r; simpl.
  - split; [injection 1 as <-; constructor | now inversion 1].
  - split.
    + destruct (f x) as [y |] eqn:E; [| discriminate]. destruct (map_opt f l) as [r' |]; [| discriminate].
      injection 1 as <-. constructor; auto. now apply IH.
    + inversion 1 as [| ? y ? r' H1 H2]; subst. rewrite H1. apply IH in H2. now rewrite H2.
Qed.

Lemma map_opt_some {A B} (f : A -> option B) : forall l,
  (exists r, map_opt f l = Some r) <-> forall x, In x l -> exists y, f x = Some y.
Proof.
  induction l as [| x l IH]; simpl.
  - split; [tauto | eauto].
  - destruct (f x) as [y |] eqn:E.
    + destruct (map_opt f l) as [r |].
      * split; [| eauto]. intros _ z [<- | Hz]; eauto. apply IH; eauto.
      * split; [intros [r Hr]; discriminate |]. intros H. exfalso. destruct (proj2 IH) as [r Hr]; [auto | discriminate].
    + split; [intros [r Hr]; discriminate |]. intros H. destruct (H x (or_introl eq_refl)). congruence.
Qed.

Lemma Forall2_imp {A B} (P Q : A -> B -> Prop) : forall l m, (forall x y, In x l -> P x y -> Q x y) ->
  Forall2 P l m -> Forall2 Q l m.
Proof.
  intros l m H H2. induction H2 as [| x y l m Hxy _ IH]; constructor.
  - apply H; simpl; auto.
  - apply IH. intros. apply H; simpl; auto.
Qed.

(** ** Rows *)

Lemma dget_combine_map : forall (g : string -> value) fs f, In f fs ->
  dget String.eqb (combine fs (map g fs)) f = Some (g f).
Proof.
  intros g. induction fs as [| a fs IH]; intros f Hin; [contradiction |]. simpl.
  destruct (String.eqb a f) eqn:E.
  - apply String.eqb_eq in E. now subst.
  - apply IH. destruct Hin as [-> | Hin]; auto. now rewrite String.eqb_refl in E.
Qed.

Lemma set_nth_length : forall fs r f v, List.length r = List.length fs ->
  List.length (set_nth_cell fs r f v) = List.length fs.
Proof. intros fs r f v H. unfold set_nth_cell. rewrite map_length, combine_length. lia. Qed.

Lemma set_nth_get : forall fs r f v g, List.length r = List.length fs -> In g fs ->
  dget String.eqb (combine fs (set_nth_cell fs r f v)) g =
  if String.eqb f g then Some v else dget String.eqb (combine fs r) g.
Proof.
  intros fs r f v g. revert r. induction fs as [| a fs IH]; intros [| c r] Hl Hin; simpl in *; try lia; try contradiction.
  destruct (String.eqb a g) eqn:E.
  - apply String.eqb_eq in E. subst a. rewrite (String.eqb_sym g f). destruct (String.eqb f g); reflexivity.
  - apply IH; [lia |]. destruct Hin as [-> | Hin]; auto. now rewrite String.eqb_refl in E.
Qed.

Lemma row_ext : forall (fs : list string) (r r' : row), NoDup fs -> List.length r = List.length fs -> List.length r' = List.length fs ->
  (forall f, In f fs -> dget String.eqb (combine fs r) f = dget String.eqb (combine fs r') f) -> r = r'.
Proof.
  induction fs as [| a fs IH]; intros [| c r] [| c' r'] Hn H1 H2 H; simpl in *; try lia; auto.
  inversion Hn as [| ? ? Hna Hn']; subst. f_equal.
  - specialize (H a (or_introl eq_refl)). rewrite String.eqb_refl in H. now injection H.
  - apply IH; auto. intros f Hf. specialize (H f (or_intror Hf)).
    destruct (String.eqb a f) eqn:E; auto. apply String.eqb_eq in E. subst. contradiction.
Qed.

Lemma dict_row_get : forall fs (l : list (string * value)) base, List.length base = List.length fs ->
  let r := fold_left (fun r fv => set_nth_cell fs r (fst fv) (snd fv)) l base in
  List.length r = List.length fs /\
  forall f, In f fs -> dget String.eqb (combine fs r) f =
    match last_bind String.eqb l f with Some v => Some v | None => dget String.eqb (combine fs base) f end.
Proof.
  intros fs l. induction l as [| [f0 v0] l IH]; intros base Hb; cbn [fold_left last_bind].
  - split; auto.
  - cbv zeta in IH. destruct (IH (set_nth_cell fs base f0 v0)) as [A B]; [now apply set_nth_length |].
    split; [exact A |]. intros f Hf. cbn [fst snd]. rewrite B by auto.
    destruct (last_bind String.eqb l f); auto. rewrite set_nth_get by auto. now destruct (String.eqb f0 f).
Qed.

Theorem row_factory_iff : forall dv t ts x r, NoDup (tdf ts) ->
  row_factory dv t ts x = Some r <-> fits dv t ts x r.
Proof.
  intros dv t ts x r Hn. unfold row_factory, fits, cell_at.
  destruct (tdf ts) as [| f0 fs] eqn:Ed.
  - destruct x as [[| fv l] | [| v l] | v]; simpl.
    + split; [injection 1 as <- |]; intuition. destruct r; simpl in *; [auto | lia].
    + split; [discriminate |]. intros (H & _). destruct (H (fst fv) (snd fv)). left. now destruct fv.
    + split; [injection 1 as <-; auto | now intros [_ ->]].
    + split; [discriminate | intros [H _]; lia].
    + split; [discriminate | intros [H _]; lia].
  - rewrite <- Ed in *. destruct x as [l | l | v].
    + destruct (forallb (fun fv => mem_str (fst fv) (tdf ts)) l) eqn:Eb.
      * pose proof (dict_row_get (tdf ts) l (map (cell_default dv t) (tdf ts)) (map_length _ _)) as [A B].
        assert (forall f v, In (f, v) l -> In f (tdf ts)) as Hin.
        { intros f v Hf. rewrite forallb_forall in Eb. apply Eb in Hf. now apply mem_str_iff in Hf. }
        split.
        -- injection 1 as <-. split; [exact Hin |]. split; [exact A |]. intros f Hf. rewrite B by auto.
           unfold given. destruct (last_bind String.eqb l f); auto. rewrite dget_combine_map by auto. reflexivity.
        -- intros (_ & Hlen & Hc). f_equal. apply (row_ext (tdf ts)); auto. intros f Hf. rewrite B, Hc by auto.
           unfold given. destruct (last_bind String.eqb l f); auto. now rewrite dget_combine_map by auto.
      * split; [discriminate |]. intros (Hin & _). exfalso. apply not_true_iff_false in Eb. apply Eb.
        apply forallb_forall. intros [f v] Hf. apply mem_str_iff. eapply Hin; eauto.
    + destruct (Nat.eqb (List.length l) (List.length (tdf ts))) eqn:E.
      * apply Nat.eqb_eq in E. split; [now injection 1 as <- | intros [_ ->]; auto].
      * apply Nat.eqb_neq in E. split; [discriminate | tauto].
    + destruct (Nat.eqb (List.length (tdf ts)) 1) eqn:E.
      * apply Nat.eqb_eq in E. split; [now injection 1 as <- | intros [_ ->]; auto].
      * apply Nat.eqb_neq in E. split; [discriminate | tauto].
Qed.

Lemma good_rows_iff : forall fields rows, good_rows fields rows = true <-> forall x, In x rows -> has_shape fields x.
Proof.
  intros fields rows. unfold good_rows. rewrite forallb_forall. split; intros H x Hx; specialize (H x Hx).
  - destruct x as [l | l | v]; simpl.
    + intros f v Hf. rewrite forallb_forall in H. apply H in Hf. now apply mem_str_iff in Hf.
    + now apply Nat.eqb_eq.
    + now apply Nat.eqb_eq.
  - destruct x as [l | l | v]; simpl in *.
    + apply forallb_forall. intros [f v] Hf. apply mem_str_iff. eauto.
    + now apply Nat.eqb_eq.
    + now apply Nat.eqb_eq.
Qed.

Lemma shape_fits : forall dv t ts x, NoDup (tdf ts) -> has_shape (tdf ts) x ->
  exists r, row_factory dv t ts x = Some r.
Proof.
  intros dv t ts x Hn Hs. unfold row_factory. destruct (tdf ts) as [| f0 fs] eqn:Ed.
  - destruct x as [[| fv l] | [| v l] | v]; simpl in Hs; eauto; try lia.
    destruct (Hs (fst fv) (snd fv)). left. now destruct fv.
  - rewrite <- Ed in *. destruct x as [l | l | v].
    + assert (forallb (fun fv => mem_str (fst fv) (tdf ts)) l = true) as ->; [| eauto].
      apply forallb_forall. intros [f v] Hf. apply mem_str_iff. simpl in Hs. eauto.
    + simpl in Hs. apply Nat.eqb_eq in Hs. rewrite Hs. eauto.
    + simpl in Hs. apply Nat.eqb_eq in Hs. rewrite Hs. eauto.
Qed.

Lemma fits_shape : forall dv t ts x r, fits dv t ts x r -> has_shape (tdf ts) x.
Proof. intros dv t ts [l | l | v] r; simpl; tauto. Qed.

(** ** Rows of a list for a keyed table *)

Lemma packed_cells : forall ts cells, tpk ts <> [] -> List.length cells = List.length (tpk ts ++ tdf ts) ->
  (if Nat.eqb (List.length (tpk ts)) 1 then KAtom (hd VNone cells) else KTup (firstn (List.length (tpk ts)) cells)) =
  packed (firstn (List.length (tpk ts)) cells).
Proof.
  intros ts cells Hne Hl. rewrite app_length in Hl. destruct (tpk ts) as [| a [| b pk]] eqn:E; [congruence | |].
  - simpl. destruct cells as [| c cells]; simpl in *; [lia | reflexivity].
  - simpl. destruct cells as [| c [| c' cells]]; simpl in *; try lia. reflexivity.
Qed.

Lemma row_factory_seq : forall dv t ts l, List.length l = List.length (tdf ts) ->
  row_factory dv t ts (RSeq l) = Some l.
Proof.
  intros dv t ts l H. unfold row_factory. destruct (tdf ts) as [| f fs] eqn:E.
  - destruct l; simpl in *; [reflexivity | lia].
  - rewrite <- E in *. apply Nat.eqb_eq in H. rewrite H. reflexivity.
Qed.

Lemma keyed_row_iff : forall dv t ts x kr, tpk ts <> [] -> has_shape (tpk ts ++ tdf ts) x ->
  (keyed_row dv t ts x = Some kr <-> fits_keyed ts x kr).
Proof.
  intros dv t ts x kr Hne Hs. unfold keyed_row, fits_keyed.
  assert (forall cells : list value, List.length cells = List.length (tpk ts ++ tdf ts) ->
            List.length (skipn (List.length (tpk ts)) cells) = List.length (tdf ts)) as Hsk.
  { intros cells H. rewrite skipn_length, H, app_length. lia. }
  destruct x as [l | l | v]; cbn [handle_row_dict].
  - set (cells := map (fun f => dget_or String.eqb l f (VNum (of_int 0))) (tpk ts ++ tdf ts)).
    assert (List.length cells = List.length (tpk ts ++ tdf ts)) as Hc by apply map_length.
    rewrite row_factory_seq by auto. cbn [option_map]. rewrite packed_cells by auto. split.
    + injection 1 as <-. exists cells. auto.
    + intros (c & _ & (_ & ->) & H1 & H2). destruct kr. simpl in *. now subst.
  - cbv zeta. simpl in Hs. rewrite row_factory_seq by auto. cbn [option_map]. rewrite packed_cells by auto. split.
    + injection 1 as <-. exists l. auto.
    + intros (c & _ & -> & H1 & H2). destruct kr. simpl in *. now subst.
  - simpl in Hs. rewrite app_length in Hs. assert (List.length (tpk ts) <> 0) by (destruct (tpk ts); simpl; congruence).
    assert (List.length (tpk ts) = 1 /\ List.length (tdf ts) = 0) as [H1 H2] by lia.
    rewrite row_factory_seq by (simpl; auto). cbn [option_map]. rewrite H1. split.
    + injection 1 as <-. exists [v]. rewrite app_length, H1, H2. auto.
    + intros (c & _ & -> & E1 & E2). destruct kr. simpl in *. now subst.
Qed.

Lemma keyed_row_some : forall dv t ts x, tpk ts <> [] -> has_shape (tpk ts ++ tdf ts) x ->
  exists kr, keyed_row dv t ts x = Some kr.
Proof.
  intros dv t ts x Hne Hs. unfold keyed_row.
  assert (forall cells : list value, List.length cells = List.length (tpk ts ++ tdf ts) ->
            List.length (skipn (List.length (tpk ts)) cells) = List.length (tdf ts)) as Hsk.
  { intros cells H. rewrite skipn_length, H, app_length. lia. }
  destruct x as [l | l | v]; cbn [handle_row_dict].
  - rewrite row_factory_seq by (apply Hsk; apply map_length). cbn; eauto.
  - rewrite row_factory_seq by (now apply Hsk). cbn; eauto.
  - simpl in Hs. rewrite app_length in Hs. assert (List.length (tpk ts) <> 0) by (destruct (tpk ts); simpl; congruence).
    rewrite row_factory_seq by (simpl; lia). cbn; eauto.
Qed.

(** ** One table *)

Lemma dict_keys_from {V} : forall (l acc : list (pkey * V)) kr,
  In kr (dupdate pkey_eqb acc l) -> In (fst kr) (map fst acc) \/ In (fst kr) (map fst l).
Proof.
  induction l as [| [k v] l IH]; intros acc kr H; cbn [dupdate fold_left] in H.
  - left. now apply in_map.
  - apply IH in H as [H | H]; [| right; simpl; auto]. cbn [fst snd] in H.
    assert (forall d, In (fst kr) (map fst (dset pkey_eqb d k v)) -> In (fst kr) (map fst d) \/ fst kr = k) as Hd.
    { clear. induction d as [| [k' v'] d IH]; simpl.
      - intros [<- | []]; auto.
      - destruct (pkey_eqb k' k); simpl; intros [<- | H]; auto. apply IH in H as [H | H]; auto. }
    apply Hd in H as [H | ->]; [auto | right; simpl; auto].
Qed.

Theorem init_one_some : forall dv t ts inp, NoDup (tdf ts) ->
  (exists tb, init_one dv t ts inp = Some tb) <-> good_input ts inp.
Proof.
  intros dv t ts inp Hn. unfold init_one, good_input.
  destruct (tpk ts) as [| p pk] eqn:Ep.
  - assert (forall rows, (exists tb, (if good_rows (tdf ts) rows
              then option_map OListed (map_opt (row_factory dv t ts) rows) else None) = Some tb) <->
              (forall x, In x rows -> has_shape (tdf ts) x)) as Hr.
    { intros rows. rewrite <- good_rows_iff. destruct (good_rows (tdf ts) rows) eqn:E.
      - split; auto. intros _. destruct (proj2 (map_opt_some (row_factory dv t ts) rows)) as [r ->]; [| simpl; eauto].
        intros x Hx. apply shape_fits; auto. now apply (proj1 (good_rows_iff (tdf ts) rows)).
      - split; [intros [tb H]; discriminate | discriminate]. }
    destruct inp as [l | rows]; cbv zeta; rewrite Hr; [| tauto].
    split.
    + intros H k x Hx. apply H. change (key_as_row k) with ((fun kr : pkey * rowin => key_as_row (fst kr)) (k, x)).
      now apply in_map.
    + intros H x Hx. apply in_map_iff in Hx as ([k r] & <- & Hin). eapply H; eauto.
  - assert (tpk ts <> []) as Hne by congruence. destruct inp as [l | rows].
    + rewrite <- Ep. split.
      * destruct (forallb _ l && good_rows (tdf ts) (map snd l) && forallb _ l) eqn:E; [| intros [tb H]; discriminate].
        intros _ k x Hin. repeat rewrite andb_true_iff in E. destruct E as [[E1 E2] _]. split.
        -- rewrite forallb_forall in E1. apply E1 in Hin. apply Nat.eqb_eq in Hin. cbn [fst] in Hin.
           destruct k; simpl in *; auto.
        -- apply (proj1 (good_rows_iff _ _) E2). apply in_map_iff. exists (k, x). auto.
      * intros H.
        assert (forallb (fun kr => Nat.eqb (keylen (fst kr)) (List.length (tpk ts))) l = true) as ->.
        { apply forallb_forall. intros [k x] Hin. apply H in Hin as [Hk _]. apply Nat.eqb_eq. destruct k; simpl in *; auto. }
        assert (good_rows (tdf ts) (map snd l) = true) as ->.
        { apply good_rows_iff. intros x Hx. apply in_map_iff in Hx as ([k x'] & <- & Hin). now apply H in Hin. }
        assert (forallb (fun kr => key_len_ok (List.length (tpk ts)) (fst kr)) l = true) as ->.
        { apply forallb_forall. intros [k x] Hin. apply H in Hin as [Hk _]. unfold key_len_ok. cbn [fst].
          destruct k as [v | vs]; simpl in Hk.
          - rewrite Hk. rewrite orb_true_r. reflexivity.
          - rewrite Hk, Nat.eqb_refl. cbn [andb].
            destruct (List.length (tpk ts)) as [| [| n]] eqn:El; [| reflexivity | reflexivity].
            destruct (tpk ts); simpl in El; congruence. }
        cbn [andb]. destruct (proj2 (map_opt_some (fun kr => option_map (pair (fst kr)) (row_factory dv t ts (snd kr))) l)) as [r ->];
          [| simpl; eauto].
        intros [k x] Hin. apply H in Hin as [_ Hs]. destruct (shape_fits dv t ts x Hn Hs) as [r Hr].
        cbn [snd fst]. rewrite Hr. simpl. eauto.
    + rewrite <- Ep. rewrite <- good_rows_iff. destruct (good_rows (tpk ts ++ tdf ts) rows) eqn:E.
      * split; auto. intros _. destruct (proj2 (map_opt_some (keyed_row dv t ts) rows)) as [r ->]; [| simpl; eauto].
        intros x Hx. apply keyed_row_some; auto. now apply (proj1 (good_rows_iff _ _) E).
      * split; [intros [tb H]; discriminate | discriminate].
Qed.

Theorem init_one_holds : forall dv t ts inp tb, NoDup (tdf ts) ->
  init_one dv t ts inp = Some tb -> holds dv t ts inp tb.
Proof.
  intros dv t ts inp tb Hn H.
  pose proof (proj1 (init_one_some dv t ts inp Hn) (ex_intro _ tb H)) as Hgood.
  unfold init_one, holds, good_input in *. destruct (tpk ts) as [| p pk] eqn:Ep.
  - assert (forall rows, (if good_rows (tdf ts) rows
              then option_map OListed (map_opt (row_factory dv t ts) rows) else None) = Some tb ->
              exists l, tb = OListed l /\ Forall2 (fits dv t ts) rows l) as Hr.
    { intros rows Hx. destruct (good_rows (tdf ts) rows); [| discriminate].
      destruct (map_opt (row_factory dv t ts) rows) as [l |] eqn:E; [| discriminate]. injection Hx as <-.
      exists l. split; auto. apply map_opt_Forall2 in E. eapply Forall2_imp; [| exact E].
      intros x y _ Hxy. now apply row_factory_iff. }
    destruct inp; cbv zeta in H; now apply Hr.
  - rewrite <- Ep in *. assert (tpk ts <> []) as Hne by congruence. destruct inp as [l | rows].
    + destruct (_ && _) in H; [| discriminate].
      destruct (map_opt _ l) as [r |] eqn:E in H; [| discriminate]. injection H as <-. exists r. split; auto.
      apply map_opt_Forall2 in E. eapply Forall2_imp; [| exact E]. intros [k x] [k' y] _ Hxy. cbn [fst snd] in *.
      destruct (row_factory dv t ts x) as [y' |] eqn:Er; [| discriminate]. injection Hxy as <- <-. split; auto.
      now apply row_factory_iff.
    + destruct (good_rows (tpk ts ++ tdf ts) rows); [| discriminate].
      destruct (map_opt (keyed_row dv t ts) rows) as [pairs |] eqn:E; [| discriminate]. injection H as <-.
      exists (dict_of pkey_eqb pairs), pairs. split; [reflexivity |]. split.
      * apply map_opt_Forall2 in E. eapply Forall2_imp; [| exact E]. intros x y Hx Hxy.
        apply (keyed_row_iff dv t ts); auto.
      * split; [| split].
        -- apply no_equal_keys_iff. unfold dict_of. apply (keys_distinct_dupdate pkey_eqb). simpl. auto.
        -- intros k. unfold dict_of. rewrite (dget_dupdate pkey_eqb pkey_eqb_refl pkey_eqb_sym pkey_eqb_trans).
           now destruct (last_bind pkey_eqb pairs k).
        -- intros kr Hin. apply dict_keys_from in Hin as [[] | Hin]. exact Hin.
Qed.
