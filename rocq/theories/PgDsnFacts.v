(** * Postgres: what the [dsn] way of writing leaves in the database. *)
From Coq Require Import ZArith Bool List String Ascii Arith Lia Permutation.
From Verif Require Import PyVal PyValFacts PyDict PyDictFacts PyStr ListFacts TypeDict Data FindTypes FindTypesFacts FK Graph GraphFacts
  Obj ObjFacts ObjMore Factory FactoryFacts InfIO InfIOFacts Params Names NamesFacts Utils Json ObjRows JsonFacts TripFacts Pg PgFacts PgWrite PgTrip PgStore PgDsn.
Import ListNotations.
Local Open Scope string_scope.
Local Open Scope list_scope.

Lemma pages_concat {A} : forall n (l : list A), 0 < n -> List.concat (pages n l) = l.
Proof.
  intros n l Hn. unfold pages. assert (forall fuel (l : list A), List.length l <= fuel -> List.concat (pages_fuel fuel n l) = l) as H; [| now apply H].
  induction fuel as [| fuel IH]; intros [| x m] Hl; cbn [pages_fuel List.concat List.length] in *; auto; try lia.
  rewrite IH; [apply firstn_skipn |]. rewrite skipn_length. cbn [List.length]. lia.
Qed.

Lemma dset_again {V} : forall (l : list (string * V)) k a b, dset String.eqb (dset String.eqb l k a) k b = dset String.eqb l k b.
Proof.
  induction l as [| [k' v] l IH]; intros k a b; simpl; [now rewrite String.eqb_refl |].
  destruct (String.eqb k' k) eqn:E; simpl; rewrite E; [reflexivity | now rewrite IH].
Qed.

Section Dsn.
  Variable date_of : value -> option Z.
  Variable pg_text : value -> string.
  Variable pg_num : string -> option num.
  Variable pg_stamp : string -> option Z.
  Variable pg_bool : string -> option bool.
  Variable pg_int : Z -> option Z.
  Variable pg_float : Z -> Z.
  Variable pg_other : string -> value -> option value.

  Let new_row := new_row pg_text pg_num pg_stamp pg_bool pg_int pg_float pg_other.
  Let insert_row := insert_row pg_text pg_num pg_stamp pg_bool pg_int pg_float pg_other.
  Let insert_all := insert_all pg_text pg_num pg_stamp pg_bool pg_int pg_float pg_other.
  Let write_data := write_data date_of pg_text pg_num pg_stamp pg_bool pg_int pg_float pg_other.
  Let given_cells := given_cells date_of.
  Let pg_data := pg_data date_of.
  Let add_given := add_given pg_text pg_num pg_stamp pg_bool pg_int pg_float pg_other.
  Let insert_page := insert_page pg_text pg_num pg_stamp pg_bool pg_int pg_float pg_other.
  Let insert_pages := insert_pages pg_text pg_num pg_stamp pg_bool pg_int pg_float pg_other.
  Let insert_groups := insert_groups pg_text pg_num pg_stamp pg_bool pg_int pg_float pg_other.
  Let dsn_data := dsn_data date_of.
  Let write_dsn := write_dsn date_of pg_text pg_num pg_stamp pg_bool pg_int pg_float pg_other.

  (** ** What a page adds *)

  Lemma add_given_spec : forall gs pt pt', add_given pt gs = Some pt' ->
    exists rows, pt' = with_rows pt (pt_rows pt ++ rows) /\ Forall2 (fun g r => new_row (pt_cols pt) g = Some r) gs rows.
  Proof.
    induction gs as [| g gs IH]; intros pt pt' H; unfold add_given in H; cbn [PgDsn.add_given] in H.
    - injection H as <-. exists []. rewrite app_nil_r, with_own_rows. split; [auto | constructor].
    - fold new_row in H. destruct (_ && _) in H; [| discriminate]. destruct (new_row (pt_cols pt) g) as [r |] eqn:N; [| discriminate].
      destruct (key_free pt r); [| discriminate]. apply IH in H as (rows & -> & F). exists (r :: rows). split; [| constructor; auto].
      cbn [pt_rows with_rows]. rewrite <- app_assoc. reflexivity.
  Qed.

  Lemma insert_page_spec : forall db t gs db', insert_page db t gs = Some db' ->
    exists pt rows, dget String.eqb db t = Some pt /\ Forall2 (fun g r => new_row (pt_cols pt) g = Some r) gs rows /\
      db' = dset String.eqb db t (with_rows pt (pt_rows pt ++ rows)).
  Proof.
    intros db t gs db' H. unfold insert_page, PgDsn.insert_page in H. destruct (dget String.eqb db t) as [pt |]; [| discriminate].
    fold add_given in H. destruct (add_given pt gs) as [pt' |] eqn:E; [| discriminate]. cbv zeta in H. destruct (forallb _ _) in H; [| discriminate].
    injection H as <-. apply add_given_spec in E as (rows & -> & F). exists pt, rows. auto.
  Qed.

  Definition added (l : list (string * list (string * value))) (db db' : pgdb) : Prop :=
    forall t, match dget String.eqb db t with
              | None => dget String.eqb db' t = None
              | Some pt => exists rows,
                  Forall2 (fun g r => new_row (pt_cols pt) g = Some r) (map snd (filter (fun tg => String.eqb (fst tg) t) l)) rows /\
                  dget String.eqb db' t = Some (with_rows pt (pt_rows pt ++ rows))
              end.

  Lemma added_none : forall db, added [] db db.
  Proof.
    intros db t. destruct (dget String.eqb db t) as [pt |] eqn:E; auto. exists []. rewrite app_nil_r, with_own_rows. split; [constructor | auto].
  Qed.

  Lemma added_app : forall l1 l2 db db1 db2, added l1 db db1 -> added l2 db1 db2 -> added (l1 ++ l2) db db2.
  Proof.
    intros l1 l2 db db1 db2 H1 H2 t. specialize (H1 t). specialize (H2 t). destruct (dget String.eqb db t) as [pt |]; [| now rewrite H1 in H2].
    destruct H1 as (r1 & F1 & E1). rewrite E1 in H2. destruct H2 as (r2 & F2 & E2). cbn [pt_cols with_rows pt_rows] in F2, E2. exists (r1 ++ r2).
    rewrite filter_app, map_app. split; [now apply Forall2_app |]. rewrite E2, <- app_assoc. reflexivity.
  Qed.

  Lemma own_only : forall (t u : string) (gs : list (list (string * value))),
    map snd (filter (fun tg => String.eqb (fst tg) u) (map (pair t) gs)) = if String.eqb t u then gs else [].
  Proof.
    intros t u gs. induction gs as [| g gs IH]; cbn [map filter fst snd]; [now destruct (String.eqb t u) |].
    destruct (String.eqb t u); cbn [map snd]; now rewrite IH.
  Qed.

  Lemma insert_page_added : forall db t gs db', insert_page db t gs = Some db' -> added (map (pair t) gs) db db'.
  Proof.
    intros db t gs db' H. apply insert_page_spec in H as (pt & rows & G & F & ->). intros u. rewrite own_only, dget_dset_str.
    destruct (String.eqb_spec t u) as [<- | N].
    - rewrite G. exists rows. auto.
    - destruct (dget String.eqb db u) as [pu |] eqn:E; auto. exists []. rewrite app_nil_r, with_own_rows. split; [constructor | auto].
  Qed.

  Lemma insert_pages_added : forall t l db db', insert_pages t l db = Some db' -> added (map (pair t) (List.concat l)) db db'.
  Proof.
    intros t. induction l as [| gs l IH]; intros db db' H; unfold insert_pages in H; cbn [PgDsn.insert_pages] in H.
    - injection H as <-. apply added_none.
    - fold insert_page in H. destruct (insert_page db t gs) as [db1 |] eqn:E; [| discriminate]. cbn [List.concat]. rewrite map_app.
      eapply added_app; [exact (insert_page_added _ _ _ _ E) |]. now apply IH.
  Qed.

  Definition flat (l : list (string * list (list (string * value)))) : list (string * list (string * value)) :=
    List.concat (map (fun tg => map (pair (fst tg)) (snd tg)) l).

  Lemma insert_groups_added : forall l db db', insert_groups l db = Some db' -> added (flat l) db db'.
  Proof.
    induction l as [| tg l IH]; intros db db' H; unfold insert_groups in H; cbn [PgDsn.insert_groups] in H.
    - injection H as <-. apply added_none.
    - fold insert_pages in H. destruct (insert_pages (fst tg) (pages page_size (snd tg)) db) as [db1 |] eqn:E; [| discriminate].
      unfold flat. cbn [map List.concat]. apply insert_pages_added in E. rewrite pages_concat in E by (unfold page_size; lia).
      eapply added_app; [exact E |]. now apply IH.
  Qed.

  (** ** The rows are those of the other way *)

  Lemma mapO_pair : forall {A B C} (h : A -> outcome B) (c : C) l gs,
    mapO (fun r => bindO (h r) (fun g => Ret (c, g))) l = Ret gs <-> exists gs', mapO h l = Ret gs' /\ gs = map (pair c) gs'.
  Proof.
    intros A B C h c. induction l as [| x l IH]; intros gs; cbn [mapO].
    - split; [intros [= <-]; exists []; auto | intros (gs' & [= <-] & ->); auto].
    - destruct (h x) as [y |]; cbn [bindO].
      + destruct (mapO (fun r => bindO (h r) (fun g => Ret (c, g))) l) as [m |] eqn:E.
        * destruct (proj1 (IH m) eq_refl) as (m' & E' & ->). rewrite E'. split; [intros [= <-]; exists (y :: m'); auto | intros (gs' & [= <-] & ->); auto].
        * destruct (mapO h l) as [m' |] eqn:E'; [| split; [discriminate | intros (? & ? & _); discriminate]].
          exfalso. assert (Raise = Ret (map (pair c) m')) as Hx; [| discriminate]. apply (IH (map (pair c) m')). exists m'. auto.
      + split; [discriminate | intros (? & ? & _); discriminate].
  Qed.

  Lemma dsn_data_flat : forall f active actives d l, pg_data f active actives d = Ret l <-> exists gs, dsn_data f active actives d = Ret gs /\ l = flat gs.
  Proof.
    intros f active actives d l. unfold pg_data, Pg.pg_data, dsn_data, PgDsn.dsn_data, flat. generalize (ordered_tables f) as ot. intros ot. revert l.
    induction ot as [| t ot IH]; intros l; cbn [mapO].
    - cbn [bindO]. split; [intros [= <-]; exists []; auto | intros (gs & [= <-] & ->); auto].
    - set (h := Pg.given_cells date_of f active actives t (ts_of (plain_schema f) t)) in *. pose proof (mapO_pair h t (full_rows (d t))) as Hp.
      destruct (mapO (fun r => bindO (h r) (fun g => Ret (t, g))) (full_rows (d t))) as [m |] eqn:E.
      + destruct (proj1 (Hp m) eq_refl) as (m' & E' & ->). rewrite E'. cbn [bindO].
        match goal with |- context [mapO ?F ot] => set (F1 := F) in * end.
        match goal with |- context [match mapO ?F ot with _ => _ end = Ret _ /\ _] => set (F2 := F) in * end.
        destruct (mapO F1 ot) as [parts |]; cbn [bindO] in *.
        * destruct (proj1 (IH _) eq_refl) as (gs & -> & Eg). split.
          -- intros [= <-]. exists ((t, m') :: gs). split; auto. cbn [map List.concat fst snd]. now rewrite Eg.
          -- intros (gs' & [= <-] & ->). cbn [map List.concat fst snd]. now rewrite Eg.
        * destruct (mapO F2 ot) as [gs |]; [| split; [discriminate | intros (? & ? & _); discriminate]].
          exfalso. assert (@Raise (list (string * list (string * value))) = Ret (List.concat (map (fun tg => map (pair (fst tg)) (snd tg)) gs))) as Hx; [| discriminate].
          apply IH. exists gs. auto.
      + split; [discriminate |]. intros (gs & H & _). destruct (mapO h (full_rows (d t))) as [m' |] eqn:E'; [| discriminate].
        exfalso. assert (Raise = Ret (map (pair t) m')) as Hx; [| discriminate]. apply Hp. exists m'. auto.
  Qed.

  (** ** What the other way accepts is accepted *)

  Lemma insert_all_split : forall l1 l2 db db', insert_all (l1 ++ l2) db = (true, db') -> exists db1, insert_all l1 db = (true, db1) /\ insert_all l2 db1 = (true, db').
  Proof.
    unfold insert_all. induction l1 as [| tg l1 IH]; intros l2 db db' H; cbn [app Pg.insert_all] in *; [eauto |].
    destruct (Pg.insert_row _ _ _ _ _ _ _ db (fst tg) (snd tg)); [| discriminate]. now apply IH.
  Qed.

  Lemma satisfied_more : forall db t pt pt' more k r, dget String.eqb db t = Some pt' -> fk_satisfied db pt k r = true ->
    fk_satisfied (dset String.eqb db t (with_rows pt' (pt_rows pt' ++ more))) pt k r = true.
  Proof.
    intros db t pt pt' more k r G H. unfold fk_satisfied in *. apply orb_true_iff in H as [H | H]; apply orb_true_iff; [now left | right].
    rewrite dget_dset_str. destruct (String.eqb_spec t (g_table k)) as [E | _]; [| exact H]. rewrite <- E, G in H.
    cbn [pt_rows with_rows]. rewrite existsb_app. apply orb_true_iff. left. exact H.
  Qed.

  Lemma page_accepted : forall t gs db db', insert_all (map (pair t) gs) db = (true, db') -> forall pt, dget String.eqb db t = Some pt ->
    exists rows, add_given pt gs = Some (with_rows pt (pt_rows pt ++ rows)) /\ db' = (match gs with [] => db | _ => dset String.eqb db t (with_rows pt (pt_rows pt ++ rows)) end) /\
      (gs = [] -> rows = []) /\ forall r k, In r rows -> In k (pt_fks pt) -> fk_satisfied db' pt k r = true.
  Proof.
    intros t. induction gs as [| g gs IH]; intros db db' H pt G; unfold insert_all in H; cbn [map Pg.insert_all] in H.
    - injection H as <-. exists []. rewrite app_nil_r, with_own_rows. split; [reflexivity |]. split; [reflexivity |]. split; [reflexivity |]. intros r k [].
    - cbn [fst snd] in H. fold insert_row in H. destruct (insert_row db t g) as [db1 |] eqn:E; [| discriminate]. fold insert_all in H.
      unfold insert_row, Pg.insert_row in E. rewrite G in E. unfold add_given. cbn [PgDsn.add_given]. destruct (_ && _) in E |- *; [| discriminate].
      fold new_row in E |- *. destruct (new_row (pt_cols pt) g) as [r |]; [| discriminate]. cbv zeta in E.
      destruct (key_free pt r) eqn:K; cbn [andb] in E; [| discriminate]. destruct (forallb _ _) eqn:Fk in E; [| discriminate]. injection E as <-.
      rewrite forallb_forall in Fk. set (pt1 := with_rows pt (pt_rows pt ++ [r])) in *.
      assert (dget String.eqb (dset String.eqb db t pt1) t = Some pt1) as G1 by (rewrite dget_dset_str, String.eqb_refl; reflexivity).
      destruct (IH _ _ H pt1 G1) as (rows & A & B & Z & S). fold add_given. exists (r :: rows). cbn [pt_rows with_rows pt1] in A. fold add_given in A.
      replace (pt_rows pt ++ r :: rows) with ((pt_rows pt ++ [r]) ++ rows) by (now rewrite <- app_assoc). split; [exact A |].
      assert (db' = dset String.eqb db t (with_rows pt ((pt_rows pt ++ [r]) ++ rows))) as Ed.
      { rewrite B. destruct gs as [| g' gs]; [rewrite (Z eq_refl), app_nil_r; reflexivity | now rewrite dset_again]. }
      split; [exact Ed |]. split; [discriminate |]. intros r' k [<- | Hr] Hk.
      + specialize (Fk k Hk). rewrite Ed. replace (dset String.eqb db t (with_rows pt ((pt_rows pt ++ [r]) ++ rows)))
          with (dset String.eqb (dset String.eqb db t pt1) t (with_rows pt1 (pt_rows pt1 ++ rows))) by (now rewrite dset_again).
        now apply satisfied_more.
      + exact (S r' k Hr Hk).
  Qed.

  Lemma insert_page_accepted : forall t gs db db', gs <> [] -> insert_all (map (pair t) gs) db = (true, db') -> insert_page db t gs = Some db'.
  Proof.
    intros t gs db db' Hne H. assert (exists pt, dget String.eqb db t = Some pt) as (pt & G).
    { destruct gs as [| g gs]; [contradiction |]. unfold insert_all in H. cbn [map Pg.insert_all fst snd] in H. unfold Pg.insert_row in H.
      destruct (dget String.eqb db t); [eauto | discriminate]. }
    destruct (page_accepted _ _ _ _ H _ G) as (rows & A & B & _ & S). unfold insert_page, PgDsn.insert_page. rewrite G. fold add_given. rewrite A. cbv zeta.
    destruct gs as [| g gs]; [contradiction |]. rewrite <- B. cbn [pt_rows with_rows]. rewrite skipn_app, skipn_all, Nat.sub_diag. cbn [app skipn].
    replace (forallb _ rows) with true; [reflexivity |]. symmetry. apply forallb_forall. intros r Hr. apply forallb_forall. intros k Hk. now apply S.
  Qed.

  Lemma insert_pages_accepted : forall t n l db db', 0 < n -> insert_all (map (pair t) l) db = (true, db') -> insert_pages t (pages n l) db = Some db'.
  Proof.
    intros t n l db db' Hn. unfold pages. assert (exists fuel, fuel = List.length l /\ List.length l <= fuel) as (fuel & E & Hl) by eauto. rewrite <- E. clear E. revert l db Hl.
    induction fuel as [| fuel IH]; intros [| x m] db Hl H; cbn [pages_fuel List.length] in Hl |- *.
    1: { unfold insert_all in H. cbn [map Pg.insert_all] in H. injection H as <-. reflexivity. }
    1: lia.
    1: { unfold insert_all in H. cbn [map Pg.insert_all] in H. injection H as <-. reflexivity. }
    assert (firstn n (x :: m) <> []) as Hf by (destruct n; [lia | discriminate]). change (S (List.length m)) with (List.length (x :: m)) in Hl. revert H Hl Hf. generalize (x :: m). intros l H Hl Hf.
    change (match insert_page db t (firstn n l) with Some db1 => insert_pages t (pages_fuel fuel n (skipn n l)) db1 | None => None end = Some db').
    rewrite <- (firstn_skipn n l) in H. rewrite map_app in H. apply insert_all_split in H as (db1 & H1 & H2).
    rewrite (insert_page_accepted _ _ _ _ Hf H1). apply IH; auto. rewrite skipn_length. 
    enough (l <> [] -> List.length l - n <= fuel) as He; [apply He; intros ->; now rewrite firstn_nil in Hf | intros _]. lia.
  Qed.

  Lemma insert_groups_accepted : forall l db db', insert_all (flat l) db = (true, db') -> insert_groups l db = Some db'.
  Proof.
    induction l as [| tg l IH]; intros db db' H.
    - unfold flat, insert_all in H. cbn in H. injection H as <-. reflexivity.
    - unfold flat in H. cbn [map List.concat] in H. apply insert_all_split in H as (db1 & H1 & H2). unfold insert_groups. cbn [PgDsn.insert_groups].
      fold insert_pages insert_groups. rewrite (insert_pages_accepted _ page_size _ _ _ ltac:(unfold page_size; lia) H1). now apply IH.
  Qed.

  Theorem dsn_same : forall f auto pre active d db db', write_data f auto pre active d db = (true, db') -> write_dsn f true pre active d db = (true, db').
  Proof.
    intros f auto pre active d db db' H. unfold write_data, Pg.write_data in H. unfold write_dsn, PgDsn.write_dsn.
    destruct (_ && _) in H |- *; [| discriminate]. destruct (handle_preexisting f pre db) as [[] db1]; [| discriminate].
    fold pg_data in H. destruct (pg_data f active (active_tables db active) d) as [l |] eqn:L; [| discriminate].
    apply dsn_data_flat in L as (gs & L & ->). fold dsn_data. rewrite L. fold insert_all in H. destruct (insert_all (flat gs) db1) as [[] db2] eqn:I; [| discriminate].
    injection H as <-. fold insert_groups. now rewrite (insert_groups_accepted _ _ _ I).
  Qed.

  (** ** A call that raises *)

  Section Call.
    Variable f : factory.
    Hypothesis Hd : decl_ok (f_decl f) = true.
    Hypothesis Hw : fks_within (f_fks f) (map fst (plain_schema f)).

    Theorem dsn_fails : forall connects pre active d db db', write_dsn f connects pre active d db = (false, db') ->
      forall t, match dget String.eqb db t with
                | None => dget String.eqb db' t = None
                | Some pt => exists rows, dget String.eqb db' t = Some (with_rows pt rows) /\
                    (rows = pt_rows pt \/ rows = [] /\ deleted pre t = true /\ In t (map fst (plain_schema f)))
                end.
    Proof.
      intros connects pre active d db db' H. unfold write_dsn, PgDsn.write_dsn in H.
      assert (forall t, match dget String.eqb db t with
                | None => dget String.eqb db t = None
                | Some pt => exists rows, dget String.eqb db t = Some (with_rows pt rows) /\
                    (rows = pt_rows pt \/ rows = [] /\ deleted pre t = true /\ In t (map fst (plain_schema f)))
                end) as Hsame.
      { intros t. destruct (dget String.eqb db t) as [pt |]; auto. exists (pt_rows pt). rewrite with_own_rows. auto. }
      destruct (_ && _) in H; [| injection H as <-; exact Hsame]. destruct (handle_preexisting f pre db) as [b1 db1] eqn:P.
      unfold handle_preexisting in P. destruct (forallb _ pre) in P; [| injection P as <- <-; injection H as <-; exact Hsame].
      apply delete_all_spec in P as (l1 & l2 & El & _ & P).
      assert (db' = db1) as ->.
      { destruct b1; [| now injection H as <-]. destruct connects; [| now injection H as <-]. destruct (PgDsn.dsn_data _ _ _ _ _); [| now injection H as <-].
        destruct (PgDsn.insert_groups _ _ _ _ _ _ _ _ _); [discriminate | now injection H as <-]. }
      intros t. rewrite P. destruct (dget String.eqb db t) as [pt |]; auto. destruct (mem_str t l1 && deleted pre t) eqn:M.
      - exists []. split; auto. right. apply andb_true_iff in M as [M1 M2]. split; auto. split; auto. apply mem_str_iff in M1.
        apply (ordered_In f Hd Hw). apply in_rev. rewrite El. apply in_app_iff. auto.
      - exists (pt_rows pt). rewrite with_own_rows. auto.
    Qed.

    (** ** A call that returns *)

    Theorem dsn_exact : forall connects pre active d db db', db_wf db -> obj_ok (plain_schema f) d -> write_dsn f connects pre active d db = (true, db') ->
      (forall t ts, In (t, ts) (plain_schema f) -> exists pt rows,
         dget String.eqb db t = Some pt /\
         dget String.eqb db' t = Some (with_rows pt ((if deleted pre t then [] else pt_rows pt) ++ rows)) /\
         Forall2 (stored_row date_of pg_text pg_num pg_stamp pg_bool pg_int pg_float pg_other f (act_of active db t) t ts pt) (full_rows (d t)) rows) /\
      forall t, ~ In t (map fst (plain_schema f)) -> dget String.eqb db' t = dget String.eqb db t.
    Proof.
      intros connects pre active d db db' [Hn Hdb] Hok H. unfold write_dsn, PgDsn.write_dsn in H.
      destruct (String.eqb (pg_name active) active && names_ok f && no_generics f && _) eqn:E; [| discriminate].
      rewrite !andb_true_iff in E. destruct E as [[[E1 E2] E3] E4]. apply String.eqb_eq in E1.
      assert (forall t ts, In (t, ts) (plain_schema f) -> exists pt, dget String.eqb db t = Some pt /\
                forall x, In x (tfields ts) -> In (pg_name x) (map c_name (pt_cols pt))) as Hpt.
      { unfold check_tables in E4. destruct (forallb _ (plain_schema f)) eqn:F in E4; [| discriminate]. rewrite forallb_forall in F.
        destruct (negb (Nat.eqb _ 0) && true) eqn:M in E4; [discriminate |]. rewrite andb_true_r in M. apply negb_false_iff in M. apply Nat.eqb_eq in M.
        intros t ts Hin. destruct (dget String.eqb db t) as [pt |] eqn:G.
        - exists pt. split; auto. specialize (F _ Hin). cbn [fst snd] in F. rewrite G in F. rewrite forallb_forall in F. intros x Hx.
          apply mem_str_iff. auto.
        - exfalso. apply length_zero_iff_nil in M. assert (In t []) as Hx; [| exact Hx]. rewrite <- M. apply filter_In. split; [now apply (in_map fst) in Hin |].
          unfold dmem. now rewrite G. }
      destruct (handle_preexisting f pre db) as [b1 db1] eqn:P. destruct b1; [| discriminate].
      unfold handle_preexisting in P. destruct (forallb _ pre) in P; [| discriminate].
      apply delete_all_spec in P as (l1 & l2 & El & Hb & P). specialize (Hb eq_refl). subst l2. rewrite app_nil_r in El. subst l1.
      assert (forall t, mem_str t (rev (ordered_tables f)) = true <-> In t (map fst (plain_schema f))) as Hrev.
      { intros t. rewrite mem_str_iff, <- in_rev. now apply ordered_In. }
      destruct connects; [| discriminate]. fold dsn_data in H. destruct (dsn_data f active (active_tables db active) d) as [gl |] eqn:L; [| discriminate].
      fold insert_groups in H. destruct (insert_groups gl db1) as [db2 |] eqn:I; [| discriminate]. injection H as <-.
      apply insert_groups_added in I. assert (pg_data f active (active_tables db active) d = Ret (flat gl)) as L' by (apply dsn_data_flat; eauto). clear L. rename L' into L.
      apply pg_data_spec in L as [L1 L2]; [| now apply ordered_NoDup]. split.
      - intros t ts Hin. destruct (Hpt _ _ Hin) as (pt & G & C). exists pt. specialize (I t). rewrite P, G in I.
        assert (mem_str t (rev (ordered_tables f)) = true) as Hm by (apply Hrev; now apply (in_map fst) in Hin). rewrite Hm in I. cbn [andb] in I.
        assert (In t (ordered_tables f)) as Ho by (apply mem_str_iff in Hm; now apply in_rev).
        destruct (L2 t) as (gs & A & B & _). specialize (B Ho). rewrite (ts_of_In _ t ts) in B by (auto; now apply plain_wf).
        assert (pt_cols (if deleted pre t then with_rows pt [] else pt) = pt_cols pt) as Ec by (now destruct (deleted pre t)).
        destruct I as (rows & F & D). rewrite Ec in F. exists rows. split; auto. split.
        + rewrite D. f_equal. now destruct (deleted pre t).
        + assert (forall r, In r (full_rows (d t)) -> List.length r = List.length (tfields ts)) as Lr by (intros r; apply full_length; now apply Hok).
          assert (NoDup (map c_name (pt_cols pt))) as Nc. { apply (Hdb t). now apply dget_str in G. }
          rewrite A in F. apply mapO_Forall2 in B. clear D A. revert rows F. induction B as [| r g l m B _ IH]; intros rows F; inversion F; subst; constructor.
          * eapply row_stored; eauto. apply Lr. simpl. auto.
          * apply IH; auto. intros; apply Lr; simpl; auto.
      - intros t Hn'. specialize (I t). rewrite P in I. destruct (dget String.eqb db t) as [pt |] eqn:G; auto.
        assert (mem_str t (rev (ordered_tables f)) = false) as Hm.
        { destruct (mem_str t (rev (ordered_tables f))) eqn:M; auto. apply Hrev in M. contradiction. }
        rewrite Hm in I. cbn [andb] in I. destruct I as (rows & F & D). destruct (L2 t) as (gs & A & _ & B).
        rewrite B in A by (rewrite ordered_In; auto). rewrite A in F. inversion F; subst. rewrite D, app_nil_r. now rewrite with_own_rows.
    Qed.
  End Call.
End Dsn.
