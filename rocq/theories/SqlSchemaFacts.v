(** * The text of an SQLite schema: what it says. *)
From Coq Require Import ZArith Bool List String Ascii Arith Lia Permutation.
From Verif Require Import PyVal PyValFacts PyDict PyDictFacts PyStr ListFacts TypeDict Data FindTypes FindTypesFacts FK FKFacts Graph GraphFacts
  Obj ObjFacts ObjMore Factory FactoryFacts InfIO InfIOFacts Params Names NamesFacts Utils Ampl Obfus Json ObjRows JsonFacts TripFacts
  Sql SqlText SqlFacts Pg PgFacts FileDb FileDbFacts SqlSchema SqlRead.
Import ListNotations.
Local Open Scope string_scope.
Local Open Scope list_scope.

(** ** Tokens *)

Definition no_close (x : text) : Prop := ~ In "]"%char x.

Lemma tok_name : forall n w rest, no_close n -> tokens w true (n ++ "]"%char :: rest) = TName (w ++ n) :: tokens [] false rest.
Proof.
  induction n as [| c n IH]; intros w rest H; cbn [app tokens].
  - rewrite Ascii.eqb_refl, app_nil_r. reflexivity.
  - destruct (Ascii.eqb_spec c "]") as [-> | Hc]; [exfalso; apply H; now left |].
    rewrite IH by (intros Hi; apply H; now right). now rewrite <- app_assoc.
Qed.

Definition plainc (c : ascii) : bool := negb (Ascii.eqb c "[" || blank c || symbol c).

Lemma tok_word : forall u w rest, forallb plainc u = true -> tokens w false (u ++ rest) = tokens (w ++ u) false rest.
Proof.
  induction u as [| c u IH]; intros w rest H; cbn [app]; [now rewrite app_nil_r |].
  cbn [forallb] in H. apply andb_true_iff in H as [H1 H2]. unfold plainc in H1. apply negb_true_iff in H1.
  apply orb_false_iff in H1 as [H1 H3]. apply orb_false_iff in H1 as [H1 H4].
  cbn [tokens]. rewrite H1, H4, H3, IH by auto. now rewrite <- app_assoc.
Qed.
Lemma tok_space : forall w rest, tokens w false (" "%char :: rest) = word w ++ tokens [] false rest.
Proof. reflexivity. Qed.
Lemma tok_line : forall w rest, tokens w false (newline :: rest) = word w ++ tokens [] false rest.
Proof. reflexivity. Qed.
Lemma tok_left : forall w rest, tokens w false ("("%char :: rest) = word w ++ TSym "(" :: tokens [] false rest.
Proof. reflexivity. Qed.
Lemma tok_open : forall w rest, tokens w false ("["%char :: rest) = word w ++ tokens [] true rest.
Proof. reflexivity. Qed.

Lemma tok_bracket : forall x rest, no_close (txt x) -> tokens [] false (bracket x ++ rest) = TName (txt x) :: tokens [] false rest.
Proof.
  intros x rest H. unfold bracket. rewrite <- !app_assoc. change (txt "[" ++ txt x ++ txt "]" ++ rest) with ("["%char :: txt x ++ "]"%char :: rest).
  rewrite tok_open, tok_name by auto. reflexivity.
Qed.

Fixpoint name_toks (xs : list string) : list token :=
  match xs with
  | [] => []
  | [x] => [TName (txt x); TSym ")"]
  | x :: xs' => TName (txt x) :: TSym "," :: name_toks xs'
  end.

Lemma tok_names : forall xs rest, xs <> [] -> (forall x, In x xs -> no_close (txt x)) ->
  tokens [] false (commas (map bracket xs) ++ txt ")" ++ rest) = name_toks xs ++ tokens [] false rest.
Proof.
  induction xs as [| x xs IH]; intros rest Hn Hc; [congruence |]. destruct xs as [| y xs].
  - cbn [map commas name_toks]. rewrite tok_bracket by (apply Hc; now left). reflexivity.
  - change (commas (map bracket (x :: y :: xs))) with (bracket x ++ txt "," ++ commas (map bracket (y :: xs))).
    rewrite <- !app_assoc. rewrite tok_bracket by (apply Hc; now left).
    change (txt "," ++ commas (map bracket (y :: xs)) ++ txt ")" ++ rest) with (","%char :: commas (map bracket (y :: xs)) ++ txt ")" ++ rest).
    change (tokens [] false (","%char :: commas (map bracket (y :: xs)) ++ txt ")" ++ rest))
      with (TSym "," :: tokens [] false (commas (map bracket (y :: xs)) ++ txt ")" ++ rest)).
    rewrite IH; [reflexivity | discriminate | intros z Hz; apply Hc; now right].
Qed.

Lemma names_read : forall xs r, xs <> [] -> names (name_toks xs ++ r) = Some (map txt xs, r).
Proof.
  induction xs as [| x xs IH]; intros r H; [congruence |]. destruct xs as [| y xs]; [reflexivity |].
  change (name_toks (x :: y :: xs) ++ r) with (TName (txt x) :: TSym "," :: (name_toks (y :: xs) ++ r)).
  cbn [names is_sym Ascii.eqb Bool.eqb]. rewrite IH by discriminate. reflexivity.
Qed.

(** ** Clauses *)

Notation built := (list rcol * list rfk * list text)%type.

Definition reads_as (c : text) (g : built -> built) : Prop := exists T,
  (forall rest, tokens [] false (c ++ rest) = T ++ tokens [] false rest) /\
  (forall d r, clause (T ++ TSym d :: r) = Some (g, TSym d :: r)).

Lemma pk_reads : forall x, no_close (txt x) -> reads_as (bracket x) (add_col (mkRC (txt x) [] None)).
Proof. intros x H. exists [TName (txt x)]. split; [| reflexivity]. intros rest. now rewrite tok_bracket. Qed.

Lemma sql_type_cases : forall f t x, sql_type f t x = "" \/ sql_type f t x = "INT" \/ sql_type f t x = "FLOAT".
Proof.
  intros f t x. unfold sql_type. destruct (String.eqb t "parameters" && has_params f); auto.
  destruct (cell_default (f_defaults f) t x) as [| | | n | |]; auto. destruct (whole n); auto.
Qed.

Section Clauses.
  Variable show : value -> text.
  Variable order : list fk -> list fk.

  Lemma column_reads : forall f t x, no_close (txt x) -> no_close (show (cell_default (f_defaults f) t x)) ->
    reads_as (column_clause show f t x) (add_col (mkRC (txt x) (txt (sql_type f t x)) (Some (show (cell_default (f_defaults f) t x))))).
  Proof.
    intros f t x Hx Hs. set (s := show _) in *.
    exists (TName (txt x) :: word (txt (sql_type f t x)) ++ [TWord (txt "default"); TName s]). split.
    - intros rest. unfold column_clause. fold s. rewrite <- !app_assoc. rewrite tok_bracket by auto.
      assert (forall w, tokens w false (txt " default [" ++ s ++ txt "]" ++ rest) = word w ++ TWord (txt "default") :: TName s :: tokens [] false rest) as D.
      { intros w. change (txt " default [" ++ s ++ txt "]" ++ rest) with (" "%char :: txt "default [" ++ s ++ "]"%char :: rest).
        rewrite tok_space. f_equal.
        change (txt "default [" ++ s ++ "]"%char :: rest) with (txt "default" ++ " "%char :: "["%char :: s ++ "]"%char :: rest).
        rewrite tok_word by reflexivity. rewrite tok_space, tok_open, tok_name by auto. reflexivity. }
      change (txt " " ++ ?z) with (" "%char :: z). rewrite tok_space. cbn [word app].
      assert (forallb plainc (txt (sql_type f t x)) = true) as Hp by (destruct (sql_type_cases f t x) as [-> | [-> | ->]]; reflexivity).
      rewrite tok_word, D by auto. cbn [app]. now rewrite <- app_assoc.
    - intros d r. destruct (sql_type_cases f t x) as [-> | [-> | ->]]; reflexivity.
  Qed.

  Lemma fk_reads : forall k, fk_map k <> [] -> NoDup (map fst (fk_map k)) -> NoDup (map snd (fk_map k)) ->
    (forall n x, In (n, x) (fk_map k) -> no_close (txt n) /\ no_close (txt x)) -> no_close (txt (fk_foreign k)) ->
    reads_as (fk_clause k) (add_fk (mkRF (map txt (map fst (fk_map k))) (txt (fk_foreign k)) (map txt (map snd (fk_map k))))).
  Proof.
    intros k He H1 H2 Hn Ht. unfold fk_clause. rewrite n2f_distinct by auto.
    rewrite <- (map_map fst bracket), <- (map_map snd bracket).
    assert (map fst (fk_map k) <> []) as E1 by (destruct (fk_map k); [congruence | discriminate]).
    assert (map snd (fk_map k) <> []) as E2 by (destruct (fk_map k); [congruence | discriminate]).
    assert (forall x, In x (map fst (fk_map k)) -> no_close (txt x)) as C1.
    { intros x Hx. apply in_map_iff in Hx as ([n y] & <- & Hi). now apply Hn in Hi. }
    assert (forall x, In x (map snd (fk_map k)) -> no_close (txt x)) as C2.
    { intros x Hx. apply in_map_iff in Hx as ([n y] & <- & Hi). now apply Hn in Hi. }
    set (a := map fst (fk_map k)) in *. set (b := map snd (fk_map k)) in *.
    exists (TWord (txt "FOREIGN") :: TWord (txt "KEY") :: TSym "(" :: name_toks a ++
            TWord (txt "REFERENCES") :: TName (txt (fk_foreign k)) :: TSym "(" :: name_toks b). split.
    - intros rest. rewrite <- !app_assoc.
      change (txt ") REFERENCES " ++ ?z) with (txt ")" ++ txt " REFERENCES " ++ z).
      change (txt "FOREIGN KEY(" ++ ?z) with (txt "FOREIGN" ++ " "%char :: txt "KEY" ++ "("%char :: z).
      rewrite tok_word by reflexivity. rewrite tok_space, tok_word by reflexivity. rewrite tok_left, tok_names by auto.
      change (txt " REFERENCES " ++ ?z) with (" "%char :: txt "REFERENCES" ++ " "%char :: z).
      rewrite tok_space, tok_word by reflexivity. rewrite tok_space, tok_bracket by auto.
      change (txt "(" ++ ?z) with ("("%char :: z). rewrite tok_left, tok_names by auto.
      cbn [app word txt list_ascii_of_string].
      rewrite <- app_assoc. reflexivity.
    - intros d r. cbn [app]. rewrite <- app_assoc. cbn [clause]. change (is_word "KEY" (txt "KEY") && is_sym "(" "(") with true. cbv iota.
      rewrite names_read by auto. change (is_word "PRIMARY" (txt "FOREIGN")) with false. change (is_word "FOREIGN" (txt "FOREIGN")) with true. cbv iota.
      cbn [app]. change (is_word "REFERENCES" (txt "REFERENCES") && is_sym "(" "(") with true. cbv iota. now rewrite names_read.
  Qed.

  Lemma key_reads : forall pk, pk <> [] -> (forall x, In x pk -> no_close (txt x)) ->
    reads_as (txt "PRIMARY KEY(" ++ commas (map bracket pk) ++ txt ")") (add_key (map txt pk)).
  Proof.
    intros pk Hn Hc. exists (TWord (txt "PRIMARY") :: TWord (txt "KEY") :: TSym "(" :: name_toks pk). split.
    - intros rest. rewrite <- !app_assoc.
      change (txt "PRIMARY KEY(" ++ ?z) with (txt "PRIMARY" ++ " "%char :: txt "KEY" ++ "("%char :: z).
      rewrite tok_word by reflexivity. rewrite tok_space, tok_word by reflexivity. rewrite tok_left, tok_names by auto. reflexivity.
    - intros d r. cbn [app clause]. change (is_word "KEY" (txt "KEY") && is_sym "(" "(") with true. cbv iota.
      rewrite names_read by auto. reflexivity.
  Qed.

  (** ** The whole statement *)

  Lemma reads_cons : forall c g, reads_as c g -> exists k T, (forall rest, tokens [] false (c ++ rest) = k :: T ++ tokens [] false rest) /\
    (forall d, k <> TSym d) /\ forall d r, clause (k :: T ++ TSym d :: r) = Some (g, TSym d :: r).
  Proof.
    intros c g ([| k T] & H1 & H2).
    - exfalso. specialize (H2 "x"%char []). discriminate.
    - exists k, T. split; [exact H1 |]. split; [| exact H2]. intros d ->. specialize (H2 "x"%char []). discriminate.
  Qed.

  Lemma body_reads : forall cl gs, Forall2 reads_as cl gs -> cl <> [] ->
    let l := tokens [] false (comma_lines cl ++ [newline] ++ txt ");") in
    List.length cl <= List.length l /\
    forall n, List.length cl <= n -> body n l = Some (fold_right (fun g b => g b) ([], [], []) gs).
  Proof.
    intros cl gs H. induction H as [| c g cl gs Hc H IH]; intros Hne; [congruence |].
    apply reads_cons in Hc as (k & T & Ht & Hk & Hcl). destruct H as [| c2 g2 cl gs Hc2 H].
    - cbn [comma_lines]. rewrite Ht. change (tokens [] false ([newline] ++ txt ");")) with [TSym ")"; TSym ";"].
      split; [simpl; lia |]. intros [| n] Hn; [simpl in Hn; lia |]. cbn [body]. rewrite Hcl. reflexivity.
    - change (comma_lines (c :: c2 :: cl)) with (c ++ txt "," ++ [newline] ++ comma_lines (c2 :: cl)).
      rewrite <- !app_assoc. rewrite Ht.
      change (tokens [] false (txt "," ++ [newline] ++ comma_lines (c2 :: cl) ++ [newline] ++ txt ");"))
        with (TSym "," :: tokens [] false (comma_lines (c2 :: cl) ++ [newline] ++ txt ");")).
      destruct IH as [IHl IHb]; [discriminate |]. cbv zeta. cbn [List.length]. rewrite app_length. cbn [List.length]. cbn [List.length] in IHl, IHb.
      split; [lia |]. intros [| n] Hn; [lia |]. cbn [body]. rewrite Hcl.
      apply reads_cons in Hc2 as (k2 & T2 & Ht2 & Hk2 & _).
      assert (exists r, tokens [] false (comma_lines (c2 :: cl) ++ [newline] ++ txt ");") = k2 :: r) as (r & Er).
      { destruct cl as [| c3 cl]; [cbn [comma_lines]; rewrite Ht2; eauto |].
        change (comma_lines (c2 :: c3 :: cl)) with (c2 ++ txt "," ++ [newline] ++ comma_lines (c3 :: cl)). rewrite <- !app_assoc, Ht2. eauto. }
      specialize (IHb n ltac:(lia)). rewrite Er in *.
      destruct k2 as [x | x | d]; [| | now destruct (Hk2 d)]; cbn [is_sym Ascii.eqb Bool.eqb]; rewrite IHb; reflexivity.
  Qed.

  Lemma fold_cols : forall {A} (h : A -> rcol) l cs fs k,
    fold_right (fun (g : built -> built) b => g b) (cs, fs, k) (map (fun x => add_col (h x)) l) = (map h l ++ cs, fs, k).
  Proof. intros A h l cs fs k. induction l as [| x l IH]; [reflexivity |]. cbn [map fold_right]. rewrite IH. reflexivity. Qed.

  Lemma fold_fks : forall {A} (h : A -> rfk) l cs fs k,
    fold_right (fun (g : built -> built) b => g b) (cs, fs, k) (map (fun x => add_fk (h x)) l) = (cs, map h l ++ fs, k).
  Proof. intros A h l cs fs k. induction l as [| x l IH]; [reflexivity |]. cbn [map fold_right]. rewrite IH. reflexivity. Qed.

  Lemma Forall2_map_l : forall {A B C} (R : B -> C -> Prop) (f : A -> B) (g : A -> C) l, (forall x, In x l -> R (f x) (g x)) ->
    Forall2 R (map f l) (map g l).
  Proof. intros A B C R f g l H. induction l as [| x l IH]; simpl; constructor; [apply H; now left | apply IH; intros; apply H; now right]. Qed.

  Definition rfk_of (k : fk) : rfk := mkRF (map txt (map fst (fk_map k))) (txt (fk_foreign k)) (map txt (map snd (fk_map k))).
  Definition key_col (x : string) : rcol := mkRC (txt x) [] None.
  Definition data_col (f : factory) (t x : string) : rcol :=
    mkRC (txt x) (txt (sql_type f t x)) (Some (show (cell_default (f_defaults f) t x))).

  Theorem table_read : forall f t ts, tfields ts <> [] -> no_close (txt t) -> (forall x, In x (tfields ts) -> no_close (txt x)) ->
    (forall x, In x (tdf ts) -> no_close (show (cell_default (f_defaults f) t x))) ->
    (forall l, Permutation (order l) l) ->
    (forall k, In k (f_fks f) -> fk_native k = t -> fk_map k <> [] /\ NoDup (map fst (fk_map k)) /\ NoDup (map snd (fk_map k)) /\
       no_close (txt (fk_foreign k)) /\ forall n x, In (n, x) (fk_map k) -> no_close (txt n) /\ no_close (txt x)) ->
    read_create (table_sql show order f t ts) =
      Some (mkRT (txt t) (map key_col (tpk ts) ++ map (data_col f t) (tdf ts))
              (map rfk_of (order (filter (fun k => String.eqb (fk_native k) t) (f_fks f)))) (map txt (tpk ts))).
  Proof.
    intros f t ts Hne Ht Hx Hs Ho Hk. set (ks := order _).
    set (gs := map (fun x => add_col (key_col x)) (tpk ts) ++ map (fun x => add_col (data_col f t x)) (tdf ts) ++
               map (fun k => add_fk (rfk_of k)) ks ++ match tpk ts with [] => [] | _ => [add_key (map txt (tpk ts))] end).
    assert (Forall2 reads_as (clauses show order f t ts) gs) as HF.
    { unfold clauses, gs. fold ks. apply Forall2_app; [| apply Forall2_app; [| apply Forall2_app]].
      - apply Forall2_map_l. intros x Hin. apply pk_reads, Hx. apply in_or_app. auto.
      - apply Forall2_map_l. intros x Hin. apply column_reads; auto. apply Hx. apply in_or_app. auto.
      - apply Forall2_map_l. intros k Hin. apply (Permutation_in _ (Ho _)) in Hin. apply filter_In in Hin as [Hin E]. apply String.eqb_eq in E.
        destruct (Hk k Hin E) as (K1 & K2 & K3 & K4 & K5). now apply fk_reads.
      - unfold key_clause. assert (forall x, In x (tpk ts) -> no_close (txt x)) as Hp by (intros x Hin; apply Hx; apply in_or_app; auto).
        destruct (tpk ts) as [| p pk]; constructor; [| constructor]. apply key_reads; [discriminate | exact Hp]. }
    assert (clauses show order f t ts <> []) as Hcl.
    { unfold clauses. unfold tfields in Hne. destruct (tpk ts); [| discriminate]. destruct (tdf ts); [now destruct Hne | discriminate]. }
    destruct (body_reads _ _ HF Hcl) as [HL HB]. cbv zeta in HL, HB.
    unfold read_create, table_sql.
    change (txt "Create TABLE " ++ ?z) with (txt "Create" ++ " "%char :: txt "TABLE" ++ " "%char :: z).
    rewrite tok_word by reflexivity. rewrite tok_space, tok_word by reflexivity. rewrite tok_space, tok_bracket by auto.
    change (txt " (" ++ [newline] ++ ?z) with (" "%char :: "("%char :: newline :: z). rewrite tok_space, tok_left, tok_line.
    set (l := tokens [] false (comma_lines _ ++ _)) in *.
    change (word ([] ++ txt "Create") ++ word ([] ++ txt "TABLE") ++ TName (txt t) :: word [] ++ word [] ++ TSym "(" :: word [] ++ l)
      with (TWord (txt "Create") :: TWord (txt "TABLE") :: TName (txt t) :: TSym "(" :: l).
    change (is_word "Create" (txt "Create") && is_word "TABLE" (txt "TABLE") && is_sym "(" "(") with true. cbv iota.
    rewrite HB by exact HL.
    unfold gs. rewrite !fold_right_app.
    assert (fold_right (fun (g : built -> built) b => g b) ([], [], []) (match tpk ts with [] => [] | _ => [add_key (map txt (tpk ts))] end) = ([], [], map txt (tpk ts))) as ->.
    { destruct (tpk ts); [reflexivity |]. cbn [fold_right add_key]. now rewrite app_nil_r. }
    rewrite fold_fks, !fold_cols, !app_nil_r. reflexivity.
  Qed.
End Clauses.
