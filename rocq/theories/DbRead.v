(** * Reading databases: what the object read holds. *)
From Coq Require Import ZArith Bool List String Ascii Arith Lia.
From Verif Require Import PyVal PyValFacts PyDict PyDictFacts PyStr ListFacts TypeDict Data FindTypes FindTypesFacts FK Graph GraphFacts
  Obj ObjFacts ObjMore Factory FactoryFacts InfIO InfIOFacts Params Names NamesFacts Utils UtilsMore Ampl Json ObjRows JsonFacts JsonDups TripFacts Sql SqlFacts
  Csv CsvTrip CsvMore Pg PgFacts PgWrite PgTrip PgRead FileDb FileDbFacts FileDbTrip FileDbDups FramesTrip.
Import ListNotations.
Local Open Scope string_scope.
Local Open Scope list_scope.

(** The table that holds the rows [rs], of those with equal keys the last one; so it has fewer rows exactly if two keys are equal. *)
Definition last_rows (ts : tschema) (rs : list (list value)) (tb : otable) : Prop :=
  match tpk ts with
  | [] => tb = OListed rs
  | _ => exists l, tb = OKeyed l /\ no_equal_keys (map fst l) /\
      (forall i r, nth_error rs i = Some r ->
         (forall j r', i < j -> nth_error rs j = Some r' -> pkey_eqb (key_of ts r) (key_of ts r') = false) ->
         exists k, In (k, skipn (List.length (tpk ts)) r) l /\ pkey_eqb k (key_of ts r) = true) /\
      (forall k r, In (k, r) l -> exists i r0, nth_error rs i = Some r0 /\ r = skipn (List.length (tpk ts)) r0 /\ pkey_eqb k (key_of ts r0) = true /\
         forall j r', i < j -> nth_error rs j = Some r' -> pkey_eqb (key_of ts r0) (key_of ts r') = false) /\
      (List.length l < List.length rs <-> ~ no_equal_keys (map (key_of ts) rs))
  end.

Lemma rows_table_last : forall ts rs, last_rows ts rs (rows_table ts rs).
Proof.
  intros ts rs. destruct (tpk ts) as [| p pk] eqn:E.
  - unfold last_rows, rows_table. now rewrite E.
  - destruct (rows_table_keyed ts rs) as (l & A & B & C & D & _). { rewrite E. discriminate. }
    unfold last_rows. rewrite E. exists l. rewrite <- E. refine (conj A (conj B (conj C (conj D _)))).
    destruct (rows_table_lost ts rs) as [L _]. rewrite A in L. cbn [out_length] in L. rewrite L. split; [tauto |]. intros H. split; auto. rewrite E. discriminate.
Qed.

Lemma rows_in_ok : forall dv t ts rs, (forall r, In r rs -> List.length r = List.length (tfields ts)) ->
  init_one dv t ts (rows_in ts rs) = Some (rows_table ts rs) /\ in_length (rows_in ts rs) <= out_length (rows_table ts rs).
Proof. intros dv t ts rs H. destruct (built_ok dv t ts rs H) as [A B]. change (rows_in ts rs) with (built ts rs). rewrite B. auto. Qed.

(** What the parameters become when they are made the types declared (C68). *)
Definition adjusted (date_of : value -> option Z) (float_of : value -> option value) (f : factory) (t : string) (tb : otable) : otable :=
  if String.eqb t "parameters" && has_params f then
    match tb with
    | OKeyed l => OKeyed (map (fun kr => match kr with
                                         | (KAtom k, v :: r) => (KAtom k, param_cell date_of float_of f k v :: r)
                                         | _ => kr
                                         end) l)
    | _ => tb
    end
  else tb.
Lemma adjust_is : forall date_of float_of f d t, adjust_params date_of float_of f d t = adjusted date_of float_of f t (d t).
Proof. intros. unfold adjust_params, adjusted. destruct (String.eqb t "parameters" && has_params f); auto. now destruct (d t). Qed.

(** Cells looked up, and each converted. *)
Lemma rows_found {R} (cell : R -> string -> value) (read : string -> value -> outcome value) fields : forall rows : list R,
  (forall r x, In r rows -> In x fields -> exists v, read x (cell r x) = Ret v) ->
  exists rs, Forall2 (fun r r' => Forall2 (fun x v => read x (cell r x) = Ret v) fields r') rows rs.
Proof.
  induction rows as [| r rows IH]; intros H; [exists []; constructor |].
  destruct IH as (rs & A). { intros; apply H; simpl; auto. }
  destruct (mapO_total (fun x => read x (cell r x)) fields) as (r' & E). { intros x Hx. apply H; simpl; auto. }
  exists (r' :: rs). constructor; auto. now apply mapO_Forall2.
Qed.
Lemma zipped {R} (cell : R -> string -> value) (read : string -> value -> outcome value) fields : forall (r : R) r',
  Forall2 (fun x v => read x (cell r x) = Ret v) fields r' <->
  Forall2 (fun fx v => read (fst fx) (snd fx) = Ret v) (combine fields (map (cell r) fields)) r'.
Proof.
  intros r. induction fields as [| x fields IH]; intros r'; simpl; split; intros H; inversion H; subst; constructor; auto; now apply IH.
Qed.

Section Postgres.
  Variable date_of : value -> option Z.
  Variable float_of : value -> option value.
  Let pg_read_cell := pg_read_cell date_of float_of.
  Let pg_create := pg_create date_of float_of.

  (** The rows of the table that count: all, or those in which the active field is true. *)
  Definition shown (a : string) (db : pgdb) (t : string) : list (list value) :=
    match dget String.eqb db t with
    | None => []
    | Some pt => filter (fun r => String.eqb a "" || negb (mem_str a (map c_name (pt_cols pt))) || value_eqb (pg_cell pt r a) (VBool true)) (pt_rows pt)
    end.
  Definition pg_cell_at (db : pgdb) (t : string) (r : list value) (x : string) : value :=
    match dget String.eqb db t with Some pt => pg_cell pt r (pg_name x) | None => VNone end.

  Lemma selected : forall a db t pt fields, NoDup (map fst db) -> dget String.eqb db t = Some pt ->
    select_rows pt (map pg_name fields) (if mem_str t (active_tables db a) then Some a else None) = map (fun r => map (pg_cell_at db t r) fields) (shown a db t).
  Proof.
    intros a db t pt fields Hn G. unfold select_rows, shown, pg_cell_at. rewrite (active_mem db a t Hn), G.
    rewrite (map_ext _ (fun r => map (fun x => pg_cell pt r (pg_name x)) fields)). 2: { intros r. unfold pg_cells. now rewrite map_map. }
    f_equal. apply filter_ext. intros r. destruct (String.eqb a ""); cbn [negb andb orb]; auto.
    destruct (mem_str a (map c_name (pt_cols pt))); auto.
  Qed.

  Definition pg_readable (f : factory) (a : string) (db : pgdb) : Prop :=
    pg_name a = a /\ names_ok f = true /\ no_generics f = true /\ f_gens f = [] /\
    forall t ts pt, In (t, ts) (plain_schema f) -> dget String.eqb db t = Some pt -> forall x, In x (tfields ts) ->
      In (pg_name x) (map c_name (pt_cols pt)) /\
      forall r, In r (shown a db t) -> pg_read_cell f t x (pg_cell pt r (pg_name x)) <> Raise.

  Theorem pg_read_succeeds : forall f a db, decl_ok (f_decl f) = true -> NoDup (map fst db) -> pg_readable f a db ->
    exists e, pg_create f a db = Ret e /\ forall t ts, In (t, ts) (plain_schema f) ->
      exists rs, Forall2 (fun r r' => Forall2 (fun x v => pg_read_cell f t x (pg_cell_at db t r x) = Ret v) (tfields ts) r') (shown a db t) rs /\
        e t = adjusted date_of float_of f t (rows_table ts rs).
  Proof.
    intros f a db Hd Hn (Ha & Hno & Hg & Hge & Hc).
    assert (forall t ts, In (t, ts) (plain_schema f) ->
      exists rs, Forall2 (fun r r' => Forall2 (fun x v => pg_read_cell f t x (pg_cell_at db t r x) = Ret v) (tfields ts) r') (shown a db t) rs) as Hrows.
    { intros t ts Hin. apply rows_found. intros r x Hr Hx. unfold pg_cell_at. destruct (dget String.eqb db t) as [pt |] eqn:G.
      - destruct (Hc t ts pt Hin G x Hx) as [_ H]. specialize (H r Hr). destruct (pg_read_cell f t x _); [eauto | contradiction].
      - unfold shown in Hr. rewrite G in Hr. contradiction. }
    set (rows := fun t => match dget String.eqb (plain_schema f) t with
                          | Some ts => match mapO (fun r => mapO (fun x => pg_read_cell f t x (pg_cell_at db t r x)) (tfields ts)) (shown a db t) with Ret rs => rs | Raise => [] end
                          | None => []
                          end).
    assert (forall t ts, In (t, ts) (plain_schema f) ->
      Forall2 (fun r r' => Forall2 (fun x v => pg_read_cell f t x (pg_cell_at db t r x) = Ret v) (tfields ts) r') (shown a db t) (rows t)) as Hr.
    { intros t ts Hin. unfold rows. rewrite (proj2 (schema_get _ t ts (proj1 (plain_wf f Hd))) Hin). destruct (Hrows t ts Hin) as (rs & F).
      rewrite (proj2 (mapO_Forall2 (fun r => mapO (fun x => pg_read_cell f t x (pg_cell_at db t r x)) (tfields ts)) (shown a db t) rs)); auto.
      clear - F. induction F; constructor; auto. now apply mapO_Forall2. }
    set (e := fun t => match dget String.eqb (plain_schema f) t with Some ts => rows_table ts (rows t) | None => OListed [] end).
    assert (forall t ts, In (t, ts) (plain_schema f) -> e t = rows_table ts (rows t)) as He.
    { intros t ts Hin. unfold e. now rewrite (proj2 (schema_get _ t ts (proj1 (plain_wf f Hd))) Hin). }
    assert (forall t ts r, In (t, ts) (plain_schema f) -> In r (rows t) -> List.length r = List.length (tfields ts)) as Hlen.
    { intros t ts r Hin H. specialize (Hr t ts Hin). clear - Hr H. induction Hr as [| r0 r1 l m F _ IH]; [contradiction |].
      destruct H as [<- | H]; auto. apply Forall2_length in F. auto. }
    destruct (create_from date_of float_of f a db e Hd Hno Hg Hge Ha Hn) as (e' & X & Y).
    - intros t ts pt Hin G x Hx. now apply (Hc t ts pt Hin G x Hx).
    - intros t ts Hin. specialize (Hr t ts Hin). destruct (dget String.eqb db t) as [pt |] eqn:G.
      + exists (rows t). rewrite (He t ts Hin). split; [| apply rows_in_ok; intros r; now apply Hlen].
        rewrite (selected a db t pt _ Hn G). clear - Hr. induction Hr as [| r r' l m F _ IH]; constructor; auto.
        unfold row_read. now apply (zipped (pg_cell_at db t) (pg_read_cell f t)).
      + rewrite (He t ts Hin). unfold shown in Hr. rewrite G in Hr. inversion Hr as [E |]. unfold rows_table, no_rows. now destruct (tpk ts).
    - exists (adjust_params date_of float_of f e'). split; [exact X |]. intros t ts Hin. exists (rows t).
      split; [now apply Hr |]. rewrite adjust_is. f_equal. rewrite (Y t ts Hin). now apply He.
  Qed.

  Theorem pg_read_needs : forall f a db e, decl_ok (f_decl f) = true -> NoDup (map fst db) -> pg_create f a db = Ret e -> pg_readable f a db.
  Proof.
    intros f a db e Hd Hn H. unfold pg_create, Pg.pg_create in H.
    destruct (String.eqb (pg_name a) a && names_ok f && no_generics f && Nat.eqb (List.length (f_gens f)) 0) eqn:B; [| discriminate].
    apply andb_true_iff in B as [B B4]. apply andb_true_iff in B as [B B3]. apply andb_true_iff in B as [B1 B2].
    apply bindO_ret in H as (missing & Hc & H). apply bindO_ret in H as (parts & Hp & _).
    refine (conj (proj1 (String.eqb_eq _ _) B1) (conj B2 (conj B3 (conj _ _)))).
    { apply Nat.eqb_eq in B4. now destruct (f_gens f). }
    intros t ts pt Hin G x Hx. split.
    - unfold check_tables in Hc. destruct (forallb _ (plain_schema f)) eqn:F; [| discriminate]. rewrite forallb_forall in F. specialize (F _ Hin). cbn [fst snd] in F.
      rewrite G, forallb_forall in F. apply mem_str_iff. now apply F.
    - intros r Hr E. apply mapO_Forall2 in Hp. destruct (Forall2_In_l _ _ _ _ Hp Hin) as (p & _ & Hg). cbn [fst snd] in Hg. rewrite G in Hg.
      apply bindO_ret in Hg as (i & Hg & _). unfold pg_table_in in Hg. apply bindO_ret in Hg as (rs & Hg & _).
      rewrite (selected a db t pt (tfields ts) Hn G) in Hg. apply mapO_Forall2 in Hg.
      destruct (Forall2_In_l _ _ _ (map (pg_cell_at db t r) (tfields ts)) Hg) as (r' & _ & Q).
      { apply in_map_iff. eauto. }
      apply mapO_Forall2 in Q. apply (zipped (pg_cell_at db t) (pg_read_cell f t)) in Q.
      destruct (Forall2_In_l _ _ _ x Q Hx) as (v & _ & V). unfold pg_cell_at in V. rewrite G in V. congruence.
  Qed.
End Postgres.

Section Files.
  Variable date_of : value -> option Z.
  Variable float_of : value -> option value.
  Variable read : factory -> string -> string -> value -> outcome value.

  (** The table of the file that is read for the table [t]. *)
  Definition source_of (db : filedb) (t : string) : option dbtable :=
    match get_db_table (map fst db) t with Ret (Some n) => find_table db n | _ => None end.
  Definition file_rows (db : filedb) (t : string) : list (list value) :=
    match source_of db t with Some dt => dt_rows dt | None => [] end.
  Definition file_cell (db : filedb) (t : string) (r : list value) (x : string) : value :=
    match source_of db t with Some dt => db_cell dt r x | None => VNone end.

  Definition file_readable (f : factory) (db : filedb) : Prop :=
    forall t ts, In (t, ts) (plain_schema f) -> get_db_table (map fst db) t = Ret None \/
      exists n dt, get_db_table (map fst db) t = Ret (Some n) /\ find_table db n = Some dt /\ forall x, In x (tfields ts) ->
        has_col dt x = true /\ forall r, In r (dt_rows dt) -> read f t x (db_cell dt r x) <> Raise.

  Lemma check_readable : forall f db, decl_ok (f_decl f) = true -> file_readable f db -> exists names, check_fields f db = Ret names.
  Proof.
    intros f db Hd H. unfold check_fields.
    assert (exists names, names_found db (map fst (plain_schema f)) = Ret names) as (names & E).
    { unfold names_found. destruct (mapO_total (fun t => bindO (get_db_table (map fst db) t) (fun o => Ret (match o with Some n => [(t, n)] | None => [] end)))
        (map fst (plain_schema f))) as (l & El).
      - intros t Ht. apply in_map_iff in Ht as ([t' ts] & <- & Hin). cbn [fst]. destruct (H t' ts Hin) as [-> | (n & dt & -> & _)]; cbn [bindO]; eauto.
      - rewrite El. cbn [bindO]. eauto. }
    rewrite E. cbn [bindO]. exists names. apply names_found_spec in E as [A B]. destruct (forallb _ names) eqn:F; auto. exfalso.
    apply not_true_iff_false in F. apply F. apply forallb_forall. intros [t n] Hin. cbn [fst snd].
    destruct (B t n Hin) as [Ht Hn]. apply in_map_iff in Ht as ([t' ts] & Ee & Ht). cbn [fst] in Ee. subst t'.
    destruct (H t ts Ht) as [G | (n' & dt & G & D & C)]; rewrite G in Hn; [discriminate |]. injection Hn as ->. rewrite D.
    rewrite (ts_of_In _ _ _ (plain_wf f Hd) Ht). apply forallb_forall. intros x Hx. now apply C.
  Qed.

  Theorem file_read_succeeds : forall f db, decl_ok (f_decl f) = true -> file_readable f db ->
    exists e, read_file date_of float_of read f db = Ret e /\ forall t ts, In (t, ts) (plain_schema f) ->
      exists rs, Forall2 (fun r r' => Forall2 (fun x v => read f t x (file_cell db t r x) = Ret v) (tfields ts) r') (file_rows db t) rs /\
        e t = adjusted date_of float_of f t (rows_table ts rs).
  Proof.
    intros f db Hd Hc. destruct (check_readable f db Hd Hc) as (names & Hnames).
    assert (forall t ts, In (t, ts) (plain_schema f) ->
      exists rs, Forall2 (fun r r' => Forall2 (fun x v => read f t x (file_cell db t r x) = Ret v) (tfields ts) r') (file_rows db t) rs) as Hrows.
    { intros t ts Hin. apply rows_found. intros r x Hr Hx. unfold file_cell, file_rows, source_of in *.
      destruct (Hc t ts Hin) as [G | (n & dt & G & D & C)]; rewrite G in *; [contradiction |]. rewrite D in *.
      destruct (C x Hx) as [_ H]. specialize (H r Hr). destruct (read f t x _); [eauto | contradiction]. }
    set (rows := fun t => match dget String.eqb (plain_schema f) t with
                          | Some ts => match mapO (fun r => mapO (fun x => read f t x (file_cell db t r x)) (tfields ts)) (file_rows db t) with Ret rs => rs | Raise => [] end
                          | None => []
                          end).
    assert (forall t ts, In (t, ts) (plain_schema f) ->
      Forall2 (fun r r' => Forall2 (fun x v => read f t x (file_cell db t r x) = Ret v) (tfields ts) r') (file_rows db t) (rows t)) as Hr.
    { intros t ts Hin. unfold rows. rewrite (proj2 (schema_get _ t ts (proj1 (plain_wf f Hd))) Hin). destruct (Hrows t ts Hin) as (rs & F).
      rewrite (proj2 (mapO_Forall2 (fun r => mapO (fun x => read f t x (file_cell db t r x)) (tfields ts)) (file_rows db t) rs)); auto.
      clear - F. induction F; constructor; auto. now apply mapO_Forall2. }
    set (e := fun t => match dget String.eqb (plain_schema f) t with Some ts => rows_table ts (rows t) | None => OListed [] end).
    assert (forall t ts, In (t, ts) (plain_schema f) -> e t = rows_table ts (rows t)) as He.
    { intros t ts Hin. unfold e. now rewrite (proj2 (schema_get _ t ts (proj1 (plain_wf f Hd))) Hin). }
    assert (forall t ts r, In (t, ts) (plain_schema f) -> In r (rows t) -> List.length r = List.length (tfields ts)) as Hlen.
    { intros t ts r Hin H. specialize (Hr t ts Hin). clear - Hr H. induction Hr as [| r0 r1 l m F _ IH]; [contradiction |].
      destruct H as [<- | H]; auto. apply Forall2_length in F. auto. }
    destruct (read_from date_of float_of read f db names e Hd Hnames) as (e' & X & Y).
    - intros t ts Hin. specialize (Hr t ts Hin). destruct (check_fields_spec _ _ _ Hd Hnames t ts Hin) as (o & G & -> & Ho). destruct o as [n |].
      + destruct (Ho n eq_refl) as (dt & D & _). exists dt, (rows t). split; auto. rewrite (He t ts Hin). split; [| apply rows_in_ok; intros r; now apply Hlen].
        assert (source_of db t = Some dt) as S by (unfold source_of; now rewrite G).
        assert (forall r x, file_cell db t r x = db_cell dt r x) as Ec by (intros; unfold file_cell; now rewrite S).
        assert (file_rows db t = dt_rows dt) as Er by (unfold file_rows; now rewrite S).
        rewrite Er in Hr. unfold db_select. clear - Hr Ec. induction Hr as [| r r' l m F _ IH]; constructor; auto.
        unfold row_of. apply (zipped (db_cell dt) (read f t)). clear - F Ec. induction F as [| x v l m E _ IH]; constructor; auto. now rewrite Ec in E.
      + rewrite (He t ts Hin). unfold file_rows, source_of in Hr. rewrite G in Hr. inversion Hr as [E |]. unfold rows_table, no_rows. now destruct (tpk ts).
    - exists (adjust_params date_of float_of f e'). split; [exact X |]. intros t ts Hin. exists (rows t).
      split; [now apply Hr |]. rewrite adjust_is. f_equal. rewrite (Y t ts Hin). now apply He.
  Qed.

  Theorem file_read_needs : forall f db e, decl_ok (f_decl f) = true -> read_file date_of float_of read f db = Ret e -> file_readable f db.
  Proof.
    intros f db e Hd H. unfold read_file in H. apply bindO_ret in H as (names & Hc & H). apply bindO_ret in H as (parts & Hp & _).
    intros t ts Hin. destruct (check_fields_spec _ _ _ Hd Hc t ts Hin) as (o & G & Hg & Ho). destruct o as [n |]; auto. right.
    destruct (Ho n eq_refl) as (dt & D & C). exists n, dt. refine (conj G (conj D _)). intros x Hx. split; auto. intros r Hr E.
    apply mapO_Forall2 in Hp. destruct (Forall2_In_l _ _ _ _ Hp Hin) as (p & _ & Q). cbn [fst snd] in Q. rewrite Hg, D in Q.
    apply bindO_ret in Q as (i & Q & _). unfold table_arg in Q. apply bindO_ret in Q as (rs & Q & _). apply mapO_Forall2 in Q.
    destruct (Forall2_In_l _ _ _ (map (db_cell dt r) (tfields ts)) Q) as (r' & _ & V). { unfold db_select. apply in_map_iff. eauto. }
    apply mapO_Forall2 in V. apply (zipped (db_cell dt) (read f t)) in V. destruct (Forall2_In_l _ _ _ x V Hx) as (v & _ & W). congruence.
  Qed.
End Files.

(** ** All together *)

Theorem pg_read_iff : forall date_of float_of f a db, decl_ok (f_decl f) = true -> NoDup (map fst db) ->
  ((exists e, pg_create date_of float_of f a db = Ret e) <->
   pg_name a = a /\ names_ok f = true /\ no_generics f = true /\ f_gens f = [] /\
   forall t ts pt, In (t, ts) (plain_schema f) -> dget String.eqb db t = Some pt -> forall x, In x (tfields ts) ->
     In (pg_name x) (map c_name (pt_cols pt)) /\
     forall r, In r (shown a db t) -> pg_read_cell date_of float_of f t x (pg_cell pt r (pg_name x)) <> Raise).
Proof.
  intros date_of float_of f a db Hd Hn. split.
  - intros (e & H). exact (pg_read_needs date_of float_of f a db e Hd Hn H).
  - intros H. destruct (pg_read_succeeds date_of float_of f a db Hd Hn H) as (e & E & _). eauto.
Qed.
Theorem pg_read_rows : forall date_of float_of f a db e t ts, decl_ok (f_decl f) = true -> NoDup (map fst db) ->
  pg_create date_of float_of f a db = Ret e -> In (t, ts) (plain_schema f) ->
  exists rs tb, Forall2 (fun r r' => Forall2 (fun x v => pg_read_cell date_of float_of f t x (pg_cell_at db t r x) = Ret v) (tfields ts) r') (shown a db t) rs /\
    last_rows ts rs tb /\ e t = adjusted date_of float_of f t tb.
Proof.
  intros date_of float_of f a db e t ts Hd Hn H Hin. destruct (pg_read_succeeds date_of float_of f a db Hd Hn (pg_read_needs date_of float_of f a db e Hd Hn H)) as (e' & E & R).
  rewrite H in E. injection E as <-. destruct (R t ts Hin) as (rs & A & B). exists rs, (rows_table ts rs). refine (conj A (conj (rows_table_last ts rs) B)).
Qed.
Theorem file_read_iff : forall date_of float_of read f db, decl_ok (f_decl f) = true ->
  ((exists e, read_file date_of float_of read f db = Ret e) <->
   forall t ts, In (t, ts) (plain_schema f) -> get_db_table (map fst db) t = Ret None \/
      exists n dt, get_db_table (map fst db) t = Ret (Some n) /\ find_table db n = Some dt /\ forall x, In x (tfields ts) ->
        has_col dt x = true /\ forall r, In r (dt_rows dt) -> read f t x (db_cell dt r x) <> Raise).
Proof.
  intros date_of float_of read f db Hd. split.
  - intros (e & H). exact (file_read_needs date_of float_of read f db e Hd H).
  - intros H. destruct (file_read_succeeds date_of float_of read f db Hd H) as (e & E & _). eauto.
Qed.
Theorem file_read_rows : forall date_of float_of read f db e t ts, decl_ok (f_decl f) = true ->
  read_file date_of float_of read f db = Ret e -> In (t, ts) (plain_schema f) ->
  exists rs tb, Forall2 (fun r r' => Forall2 (fun x v => read f t x (file_cell db t r x) = Ret v) (tfields ts) r') (file_rows db t) rs /\
    last_rows ts rs tb /\ e t = adjusted date_of float_of f t tb.
Proof.
  intros date_of float_of read f db e t ts Hd H Hin. destruct (file_read_succeeds date_of float_of read f db Hd (file_read_needs date_of float_of read f db e Hd H)) as (e' & E & R).
  rewrite H in E. injection E as <-. destruct (R t ts Hin) as (rs & A & B). exists rs, (rows_table ts rs). refine (conj A (conj (rows_table_last ts rs) B)).
Qed.

(** ** The setting *)

Lemma no_equal_keys_pairs : forall ts rs, ~ no_equal_keys (map (key_of ts) rs) <->
  exists i j r r', i < j /\ nth_error rs i = Some r /\ nth_error rs j = Some r' /\ pkey_eqb (key_of ts r) (key_of ts r') = true.
Proof.
  intros ts. induction rs as [| r rs IH].
  - split; [intros H; exfalso; apply H; constructor | intros (i & j & r & r' & _ & H & _); destruct i; discriminate].
  - unfold no_equal_keys in *. cbn [map]. destruct (existsb (fun r' => pkey_eqb (key_of ts r) (key_of ts r')) rs) eqn:E.
    + split.
      * intros _. apply existsb_exists in E as (r' & H & E). apply In_nth_error in H as (j & H). exists 0, (S j), r, r'. simpl. auto with arith.
      * intros _ H. apply existsb_exists in E as (r' & Hin & E). apply NoDup_cons_iff in H as [H _]. apply H.
        apply pkey_eqb_iff in E. rewrite E. now apply in_map, in_map.
    + assert (forall r', In r' rs -> pkey_eqb (key_of ts r) (key_of ts r') = false) as N.
      { intros r' Hr. apply not_true_is_false. intros Q. apply not_true_iff_false in E. apply E. apply existsb_exists. eauto. }
      assert (~ In (canon_key (key_of ts r)) (map canon_key (map (key_of ts) rs))) as M.
      { intros H. apply in_map_iff in H as (k & Hk & H). apply in_map_iff in H as (r' & <- & H). specialize (N _ H).
        assert (pkey_eqb (key_of ts r) (key_of ts r') = true) by (apply pkey_eqb_iff; congruence). congruence. }
      rewrite NoDup_cons_iff. split.
      * intros H. destruct (proj1 IH) as (i & j & a & b & L & A & B & C). { intros Q. apply H. auto. }
        exists (S i), (S j), a, b. simpl. auto with arith.
      * intros (i & j & a & b & L & A & B & C) [_ H]. destruct j as [| j]; [inversion L |]. simpl in B. destruct i as [| i].
        -- simpl in A. injection A as <-. rewrite (N b) in C; [discriminate |]. now apply nth_error_In in B.
        -- simpl in A. revert H. apply IH. exists i, j, a, b. auto with arith.
Qed.

Theorem last_rows_lost : forall ts rs tb, last_rows ts rs tb ->
  (out_length tb < List.length rs <-> tpk ts <> [] /\ exists i j r r', i < j /\ nth_error rs i = Some r /\ nth_error rs j = Some r' /\ pkey_eqb (key_of ts r) (key_of ts r') = true).
Proof.
  intros ts rs tb H. unfold last_rows in H. destruct (tpk ts) as [| p pk] eqn:E.
  - subst tb. cbn [out_length]. split; [intros L; exfalso; revert L; apply Nat.lt_irrefl | intros [X _]; now contradiction X].
  - destruct H as (l & -> & _ & _ & _ & L). cbn [out_length]. rewrite L, no_equal_keys_pairs. split; [split; [discriminate | auto] | tauto].
Qed.

Definition other_setting (f : factory) (v : value) : factory := with_flags f (f_flag f) (f_xlsx f) v (f_auto f).

Lemma Forall2_fun {A B} (P : A -> B -> Prop) : (forall x y y', P x y -> P x y' -> y = y') -> forall l m m', Forall2 P l m -> Forall2 P l m' -> m = m'.
Proof.
  intros H l m m' F. revert m'. induction F as [| x y l m Hx _ IH]; intros m' F'; inversion F'; subst; auto. f_equal; [eapply H; eauto | now apply IH].
Qed.

Theorem pg_read_setting : forall date_of float_of f v a db e, decl_ok (f_decl f) = true -> NoDup (map fst db) ->
  pg_create date_of float_of f a db = Ret e -> exists e', pg_create date_of float_of (other_setting f v) a db = Ret e' /\
    forall t ts, In (t, ts) (plain_schema f) -> e' t = e t.
Proof.
  intros date_of float_of f v a db e Hd Hn H. pose proof (pg_read_needs date_of float_of f a db e Hd Hn H) as Q.
  destruct (pg_read_succeeds date_of float_of f a db Hd Hn Q) as (e0 & E & R). rewrite H in E. injection E as <-.
  destruct (pg_read_succeeds date_of float_of (other_setting f v) a db Hd Hn Q) as (e' & E' & R'). exists e'. split; auto.
  intros t ts Hin. destruct (R t ts Hin) as (rs & A & ->). destruct (R' t ts Hin) as (rs' & A' & ->).
  assert (rs' = rs) as ->.
  { refine (Forall2_fun _ _ _ _ _ A' A). intros r y y'. apply Forall2_fun. intros x u u' B1 B2. congruence. }
  reflexivity.
Qed.

Theorem file_read_setting : forall date_of float_of read f v db e, decl_ok (f_decl f) = true ->
  (forall t x u, read (other_setting f v) t x u = read f t x u) ->
  read_file date_of float_of read f db = Ret e -> exists e', read_file date_of float_of read (other_setting f v) db = Ret e' /\
    forall t ts, In (t, ts) (plain_schema f) -> e' t = e t.
Proof.
  intros date_of float_of read f v db e Hd Hr H. pose proof (file_read_needs date_of float_of read f db e Hd H) as Q.
  destruct (file_read_succeeds date_of float_of read f db Hd Q) as (e0 & E & R). rewrite H in E. injection E as <-.
  destruct (file_read_succeeds date_of float_of read (other_setting f v) db Hd) as (e' & E' & R').
  { intros t ts Hin. destruct (Q t ts Hin) as [G | (n & dt & A & B & C)]; auto. right. exists n, dt. refine (conj A (conj B _)). intros x Hx. destruct (C x Hx) as [C1 C2].
    split; auto. intros r. rewrite Hr. apply C2. }
  exists e'. split; auto.
  intros t ts Hin. destruct (R t ts Hin) as (rs & A & ->). destruct (R' t ts Hin) as (rs' & A' & ->).
  assert (rs' = rs) as ->.
  { refine (Forall2_fun (fun r r' => Forall2 (fun x v => read f t x (file_cell db t r x) = Ret v) (tfields ts) r') _ _ _ _ _ A).
    - intros r y y'. apply Forall2_fun. intros x u u' B1 B2. congruence.
    - clear - A' Hr. induction A' as [| r r' l m F _ IH]; constructor; auto. clear - F Hr. induction F as [| x u l m B _ IH]; constructor; auto. now rewrite Hr in B. }
  reflexivity.
Qed.
