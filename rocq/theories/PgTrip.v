(** * Postgres: reading back what was written. *)
From Coq Require Import ZArith Bool List String Ascii Arith Lia Permutation.
From Verif Require Import PyVal PyValFacts PyDict PyDictFacts PyStr ListFacts TypeDict Data FindTypes FindTypesFacts FK Graph GraphFacts
  Obj ObjFacts ObjMore Factory FactoryFacts InfIO InfIOFacts Params Names NamesFacts Utils UtilsMore Ampl Json ObjRows JsonFacts TripFacts Sql SqlFacts Pg PgFacts PgWrite.
Import ListNotations.
Local Open Scope string_scope.
Local Open Scope list_scope.

Lemma filter_all {A} (p : A -> bool) : forall l, (forall x, In x l -> p x = true) -> filter p l = l.
Proof. induction l as [| x l IH]; intros H; simpl; auto. rewrite H by (simpl; auto). f_equal. apply IH. intros; apply H; simpl; auto. Qed.

(** The argument of the constructor made of the rows read. *)
Definition rows_in (ts : tschema) (rs : list (list value)) : tablein :=
  match tpk ts with
  | [] => TRows (map RSeq rs)
  | _ => TDict (dict_of pkey_eqb (map (fun r =>
           (match firstn (List.length (tpk ts)) r with [v] => KAtom v | l => KTup l end, RSeq (skipn (List.length (tpk ts)) r))) rs))
  end.

Lemma rows_back : forall t ts tb rs, wf_tschema ts -> table_ok ts tb ->
  match tb with
  | OKeyed l => no_equal_keys (map fst l) /\ forall k r, In (k, r) l -> k = packed (key_cells k)
  | OListed _ => True
  end ->
  Permutation rs (full_rows tb) ->
  exists inp tb', rows_in ts rs = inp /\
    (forall dv, init_one dv t ts inp = Some tb') /\ in_length inp = out_length tb' /\ reordered tb' tb.
Proof.
    intros t ts tb rs Hn Hok Hk P. unfold rows_in.
    unfold table_ok in Hok. destruct (tpk ts) as [| p pk] eqn:Ep; destruct tb as [l | l]; try contradiction.
    - cbn [full_rows] in P. exists (TRows (map RSeq rs)), (OListed rs). split; [reflexivity |].
      assert (table_ok ts (OListed rs)) as Hok'.
      { unfold table_ok. rewrite Ep. intros r Hr. apply Hok. eapply Permutation_in; eauto. }
      assert (Forall2 (describes (tfields ts)) (map RSeq rs) (full_rows (OListed rs))) as D.
      { cbn [full_rows]. clear. induction rs; simpl; constructor; auto. now left. }
      split; [| split; [simpl; apply map_length | exact P]].
      intros dv. apply (table_from_rows dv t ts (map RSeq rs) (OListed rs)); auto.
    - rewrite <- Ep in *. assert (tpk ts <> []) as Hne by congruence. destruct Hk as [Hk1 Hk2]. cbn [full_rows] in P.
      apply Permutation_map_inv in P as (l2 & -> & P).
      set (pairs := map _ (map _ l2)).
      assert (pairs = map (fun kr => (fst kr, RSeq (snd kr))) l2) as Epairs.
      { unfold pairs. rewrite map_map. apply map_ext_in. intros [k r] Hin. cbn [fst snd].
        apply (Permutation_in _ (Permutation_sym P)) in Hin. destruct (Hok _ _ Hin) as [H1 H2]. destruct (key_front ts k r H1) as [-> ->].
        f_equal. transitivity (packed (key_cells k)); [| symmetry; exact (Hk2 _ _ Hin)].
        now destruct (key_cells k) as [| v1 [| v2 vs]]. }
      assert (no_equal_keys (map fst l2)) as Hk3.
      { unfold no_equal_keys in *. eapply Permutation_NoDup; [| exact Hk1]. now repeat apply Permutation_map. }
      assert (dict_of pkey_eqb pairs = pairs) as Ed.
      { apply dict_of_distinct. apply no_equal_keys_iff. rewrite Epairs, map_map. exact Hk3. }
      exists (TDict pairs), (OKeyed l2). rewrite Ed. split; [reflexivity |].
      assert (forall k r, In (k, r) l2 -> key_shape ts k /\ List.length r = List.length (tdf ts) /\ k = packed (key_cells k)) as H2.
      { intros k r Hin. apply (Permutation_in _ (Permutation_sym P)) in Hin. destruct (Hok _ _ Hin) as [H1 H2]. eauto. }
      split; [| split; [rewrite Epairs; simpl; apply map_length | simpl; now symmetry]].
      intros dv. unfold init_one. rewrite Ep, <- Ep. rewrite Epairs.
      assert (forallb (fun kr : pkey * rowin => Nat.eqb (keylen (fst kr)) (List.length (tpk ts))) (map (fun kr => (fst kr, RSeq (snd kr))) l2) = true) as ->.
      { apply forallb_forall. intros [k x] Hin. apply in_map_iff in Hin as ([k' r] & E & Hin). injection E as <- <-.
        destruct (H2 _ _ Hin) as [H3 _]. apply Nat.eqb_eq. destruct k'; simpl in *; auto. }
      assert (good_rows (tdf ts) (map snd (map (fun kr => (fst kr, RSeq (snd kr))) l2)) = true) as ->.
      { apply good_rows_iff. intros x Hin. rewrite map_map in Hin. apply in_map_iff in Hin as ([k r] & <- & Hin).
        simpl. now apply (H2 k r Hin). }
      assert (forallb (fun kr : pkey * rowin => key_len_ok (List.length (tpk ts)) (fst kr)) (map (fun kr => (fst kr, RSeq (snd kr))) l2) = true) as ->.
      { apply forallb_forall. intros [k x] Hin. apply in_map_iff in Hin as ([k' r] & E & Hin). injection E as <- <-. cbn [fst snd].
        destruct (H2 _ _ Hin) as (H3 & _ & H4). unfold key_len_ok, key_shape in *. destruct k' as [v | lv].
        - rewrite H3. apply orb_true_r.
        - rewrite <- H3. rewrite Nat.eqb_refl. destruct lv as [| v1 [| v2 lv]]; simpl in *; auto; try discriminate.
          exfalso. destruct (tpk ts); [contradiction | discriminate]. }
      cbn [andb].
      assert (map_opt (fun kr : pkey * rowin => option_map (pair (fst kr)) (row_factory dv t ts (snd kr))) (map (fun kr => (fst kr, RSeq (snd kr))) l2) = Some l2) as ->; auto.
      assert (forall k r, In (k, r) l2 -> List.length r = List.length (tdf ts)) as H5 by (intros k r Hin; now apply (H2 k r Hin)).
      clear - H5. induction l2 as [| [k r] l2 IH]; simpl; auto. rewrite row_factory_seq by (eapply H5; simpl; eauto). simpl.
      rewrite IH; auto. intros; eapply H5; simpl; eauto.
  Qed.


(** The same tables, each with its rows in any order. *)
Definition same_rows (db db' : pgdb) : Prop :=
  forall t pt, dget String.eqb db t = Some pt ->
    exists rows, dget String.eqb db' t = Some (with_rows pt rows) /\ Permutation (pt_rows pt) rows.

Lemma active_mem : forall db a t, NoDup (map fst db) ->
  mem_str t (active_tables db a) = match dget String.eqb db t with
                                   | None => false
                                   | Some pt => negb (String.eqb a "") && mem_str a (map c_name (pt_cols pt))
                                   end.
Proof.
  intros db a t Hn. unfold active_tables. destruct (String.eqb a "") eqn:E.
  - now destruct (dget String.eqb db t).
  - cbn [negb andb]. set (l := map fst (filter _ db)). destruct (mem_str t l) eqn:M.
    + apply mem_str_iff in M. unfold l in M. apply in_map_iff in M as ([t' pt] & E' & M). cbn [fst] in E'. subst t'.
      apply filter_In in M as [M1 M2]. apply (dget_str _ _ _ Hn) in M1. now rewrite M1.
    + destruct (dget String.eqb db t) as [pt |] eqn:G; auto. symmetry. apply not_true_is_false. intros H. apply mem_str_false in M. apply M.
      unfold l. apply (dget_str _ _ _ Hn) in G. apply in_map_iff. exists (t, pt). split; auto. apply filter_In. auto.
Qed.

Section Trip.
  Variable date_of : value -> option Z.
  Variable float_of : value -> option value.
  Variable pg_text : value -> string.
  Variable pg_num : string -> option num.
  Variable pg_stamp : string -> option Z.
  Variable pg_bool : string -> option bool.
  Variable pg_int : Z -> option Z.
  Variable pg_float : Z -> Z.
  Variable pg_other : string -> value -> option value.

  Let coerce := coerce pg_text pg_num pg_stamp pg_bool pg_int pg_float pg_other.
  Let new_row := new_row pg_text pg_num pg_stamp pg_bool pg_int pg_float pg_other.
  Let write_data := write_data date_of pg_text pg_num pg_stamp pg_bool pg_int pg_float pg_other.
  Let pg_write_cell := pg_write_cell date_of.
  Let pg_read_cell := pg_read_cell date_of float_of.
  Let pg_create := pg_create date_of float_of.

  Variable f : factory.

  (** A cell is written, stored by its column, and read. *)
  Definition pg_trip (db : pgdb) (t : string) (ts : tschema) (x : string) (v w : value) : Prop :=
    forall pt c, dget String.eqb db t = Some pt -> In c (pt_cols pt) -> c_name c = pg_name x ->
    forall u s, pg_write_cell f t x v = Ret u -> coerce (c_type c) u = Some s -> pg_read_cell f t x s = Ret w.

  Lemma table_in_rows : forall t ts rows rs,
    mapO (fun r => mapO (fun fx => pg_read_cell f t (fst fx) (snd fx)) (combine (tfields ts) r)) rows = Ret rs ->
    pg_table_in date_of float_of f t ts rows = Ret (rows_in ts rs).
  Proof. intros t ts rows rs H. unfold pg_table_in. fold pg_read_cell. rewrite H. reflexivity. Qed.

  Theorem pg_round_trip : forall auto pre active active' d db db2 db3, decl_ok (f_decl f) = true -> fks_within (f_fks f) (map fst (plain_schema f)) ->
    f_gens f = [] -> db_wf db ->
    obj_ok (plain_schema f) d -> obj_keys (plain_schema f) d -> proper_keys (plain_schema f) d ->
    (forall t ts, In (t, ts) (plain_schema f) -> deleted pre t = true) ->
    (active' = "" \/ active' = active /\ forall t pt c, dget String.eqb db t = Some pt -> In c (pt_cols pt) -> c_name c = active -> c_type c = CBool) ->
    cells_kept f (pg_trip db) d -> params_kept date_of float_of f (pg_trip db) d ->
    write_data f auto pre active d db = (true, db2) -> NoDup (map fst db3) -> same_rows db2 db3 ->
    exists e, pg_create f active' db3 = Ret e /\ forall t ts, In (t, ts) (plain_schema f) -> reordered (e t) (d t).
  Proof.
    intros auto pre active active' d db db2 db3 Hd Hw Hgens [Hdbn Hdb] Hok Hks Hpr Hpre Hact Hc Hp Hwr Hn3 Hlike. pose proof (plain_wf f Hd) as Hwf.
    destruct (before_adjustment date_of float_of f (pg_trip db) d) as (d1 & Hok1 & Hks1 & Hpr1 & Hrows & Hadj); auto.
    pose proof (write_data_ok date_of pg_text pg_num pg_stamp pg_bool pg_int pg_float pg_other f Hd Hw _ _ _ _ _ _ Hwr) as (Hn & Hng & Ha & Hst & _).
    fold new_row in Hst.
    assert (pg_name active' = active') as Ha' by (destruct Hact as [-> | [-> _]]; auto).
    (* the rows selected, for each table *)
    set (act t := if mem_str t (active_tables db3 active') then Some active' else None).
    assert (forall t ts, In (t, ts) (plain_schema f) -> exists pt3 inp tb', dget String.eqb db3 t = Some pt3 /\
              (forall x, In x (tfields ts) -> In (pg_name x) (map c_name (pt_cols pt3))) /\
              pg_table_in date_of float_of f t ts (select_rows pt3 (map pg_name (tfields ts)) (act t)) = Ret inp /\
              (forall dv, init_one dv t ts inp = Some tb') /\
              in_length inp = out_length tb' /\ reordered tb' (d1 t)) as Htab.
    { intros t ts Hin. destruct (Hst _ _ Hin) as (pt & rows & G & Hcols & G2 & F). rewrite (Hpre _ _ Hin) in G2. cbn [app] in G2.
      destruct (Hlike _ _ G2) as (rows3 & G3 & P). cbn [pt_rows with_rows] in P.
      assert (NoDup (map c_name (pt_cols pt))) as Hnc. { apply (Hdb t). now apply dget_str in G. }
      assert (forall r, In r (full_rows (d t)) -> List.length r = List.length (tfields ts)) as Lr by (intros r; apply full_length; now apply Hok).
      assert (filter (fun r => match act t with Some a => value_eqb (pg_cell (with_rows pt rows3) r a) (VBool true) | None => true end) rows3 = rows3) as Ef.
      { apply filter_all. intros r Hr. unfold act. rewrite active_mem by auto. rewrite G3. cbn [pt_cols with_rows].
        destruct (negb (String.eqb active' "") && mem_str active' (map c_name (pt_cols pt))) eqn:M; auto.
        apply andb_true_iff in M as [M1 M2]. destruct Hact as [-> | [-> Hb]]; [discriminate |].
        apply mem_str_iff in M2. apply in_map_iff in M2 as (c & Ec & Hcin).
        assert (In r rows) as Hr' by (eapply Permutation_in; [symmetry |]; eauto).
        destruct (Forall2_In_r _ _ _ _ F Hr') as (r0 & Hr0 & g & Hg & Hnew).
        assert (In t (active_tables db active)) as Hta.
        { apply mem_str_iff. rewrite active_mem by auto. rewrite G, M1. cbn [andb]. apply mem_str_iff. rewrite <- Ec. now apply in_map. }
        assert (c_type c = CBool) as Ect by (eapply Hb; eauto).
        destruct (given_spec date_of _ _ _ _ _ _ _ Hg) as (cells & Eg & Hcells). pose proof Hta as Hta'. apply mem_str_iff in Hta'. rewrite Hta' in Eg.
        assert (dget String.eqb g active = Some (VBool true) \/ exists x, In x (tfields ts) /\ pg_name x = active) as [Gg | (x & Hx & Ex)].
        { subst g. rewrite dget_app. destruct (dget String.eqb cells active) as [v |] eqn:Gc.
          - right. apply dget_In in Gc as (k & Ek & Hk). apply String.eqb_eq in Ek. subst k.
            destruct (Forall2_In_r _ _ _ _ Hcells Hk) as ([x w] & Hxw & E & _). cbn [fst] in E. exists x. split; auto. eapply in_combine_l; eauto.
          - left. cbn [dget]. now rewrite String.eqb_refl. }
        - pose proof (stored_cell pg_text pg_num pg_stamp pg_bool pg_int pg_float pg_other pt g r c Hnc Hnew Hcin) as [S1 _].
          rewrite Ec, Gg, Ect in S1. cbn [Pg.coerce] in S1. injection S1 as S1. unfold pg_cell. cbn [pt_cols with_rows]. fold (pg_cell pt r active). now rewrite <- S1.
        - (* the insert of a row with a column named twice fails *)
          exfalso. pose proof (write_data_distinct date_of pg_text pg_num pg_stamp pg_bool pg_int pg_float pg_other f Hd Hw auto pre active d db db2 Hwr t ts r0 g Hin Hr0 Hg) as Nd.
          rewrite Eg in Nd. rewrite map_app in Nd. cbn [map fst] in Nd. eapply NoDup_app_disj; [exact Nd | | simpl; left; reflexivity].
          assert (In x (map fst (combine (tfields ts) r0))) as Hxi by (rewrite map_fst_combine; auto; symmetry; auto).
          apply in_map_iff in Hxi as (fx & Efx & Hfx). destruct (Forall2_In_l _ _ _ _ Hcells Hfx) as (nv & Hnv & Env & _).
          apply in_map_iff. exists nv. split; auto. congruence. }
      assert (mapO (fun r => mapO (fun fx => pg_read_cell f t (fst fx) (snd fx)) (combine (tfields ts) r))
                (map (fun r => pg_cells pt r (map pg_name (tfields ts))) rows) = Ret (full_rows (d1 t))) as Hread.
      { specialize (Hrows _ _ Hin). apply mapO_Forall2. clear P G2 G3 Ef. revert F Hrows Lr. generalize (full_rows (d t)) as a, (full_rows (d1 t)) as b.
        intros a b F. revert b. induction F as [| r r' a rows (g & Hg & Hnew) _ IH]; intros b Hrows Lr; inversion Hrows as [| ? r1 ? b1 R1 R2]; subst; simpl; constructor.
        - pose proof (stored_fields date_of pg_text pg_num pg_stamp pg_bool pg_int pg_float pg_other f _ _ _ _ _ _ _ _ Hn Hin Hnc
            (Lr r (or_introl eq_refl)) Hcols Hg Hnew) as Hsf.
          assert (List.length r = List.length (tfields ts)) as L1 by (apply Lr; simpl; auto).
          set (stored := pg_cells pt r' (map pg_name (tfields ts))) in *. clearbody stored. apply mapO_Forall2.
          assert (forall x, In x (tfields ts) -> In x (tfields ts)) as Hsub by auto. revert Hsub Hsf R1 L1. generalize (tfields ts) at 1 3 4 5 6 as fields.
          clear - G. intros fields. revert r stored r1. induction fields as [| x fields IH]; intros [| v r] stored r1 Hsub Hsf R1 L1; try discriminate; simpl in *.
          + inversion R1. constructor.
          + inversion Hsf as [| ? s ? ss (c & u & C1 & C2 & C3 & C4 & _) Hs]; subst. inversion R1 as [| ? w ? ws T1 Tr]; subst. simpl. constructor.
            * cbn [fst snd] in *. exact (T1 pt c G C1 C2 u s C3 C4).
            * apply (IH r); auto.
        - apply IH; auto. intros; apply Lr; simpl; auto. }
      assert (Permutation (map (fun r => pg_cells pt r (map pg_name (tfields ts))) rows3) (map (fun r => pg_cells pt r (map pg_name (tfields ts))) rows)) as P'.
      { apply Permutation_map. now symmetry. }
      destruct (mapO_perm _ _ _ _ P' Hread) as (rs & Hrs & Q).
      destruct (rows_back t ts (d1 t) rs) as (inp & tb' & E1 & E2 & E3 & E4); auto.
      - now apply Hwf in Hin.
      - specialize (Hks1 _ _ Hin). specialize (Hpr1 _ _ Hin). destruct (d1 t); auto.
      - exists (with_rows pt rows3), inp, tb'. split; auto. split; auto. split; auto.
        unfold select_rows. cbn [pt_rows with_rows]. rewrite Ef. subst inp. apply table_in_rows. exact Hrs. }
    set (g := fun tts : string * tschema => match dget String.eqb db3 (fst tts) with
                            | None => Ret []
                            | Some pt => bindO (pg_table_in date_of float_of f (fst tts) (snd tts)
                                                  (select_rows pt (map pg_name (tfields (snd tts))) (act (fst tts)))) (fun i => Ret [(fst tts, i)])
                            end).
    assert (forall l, (forall t ts, In (t, ts) l -> In (t, ts) (plain_schema f)) -> NoDup (map fst l) -> exists parts (e1 : obj), mapO g l = Ret parts /\
              map fst (List.concat parts) = map fst l /\
              (forall t inp, In (t, inp) (List.concat parts) -> exists ts, In (t, ts) l /\
                 (forall dv, init_one dv t ts inp = Some (e1 t)) /\ in_length inp = out_length (e1 t)) /\
              forall t ts, In (t, ts) l -> reordered (e1 t) (d1 t)) as Hin.
    { induction l as [| [t ts] l IH]; intros Hsub Hnd.
      - exists [], d1. simpl. split; auto. split; auto. split; [intros ? ? [] | intros ? ? []].
      - cbn [map fst] in Hnd. inversion Hnd as [| ? ? Hx Hnd']; subst.
        destruct IH as (parts & e1 & A & B & C & D); auto. { intros; apply Hsub; simpl; auto. }
        assert (In (t, ts) (plain_schema f)) as H1 by (apply Hsub; simpl; auto).
        destruct (Htab _ _ H1) as (rows' & inp & tb' & E & _ & F & G & H & I). exists ([(t, inp)] :: parts).
        exists (fun t0 => if String.eqb t0 t then tb' else e1 t0).
        assert (g (t, ts) = Ret [(t, inp)]) as K. { unfold g. cbn [fst snd]. rewrite E, F. reflexivity. }
        assert (forall t0 ts0, In (t0, ts0) l -> String.eqb t0 t = false) as Hne.
        { intros t0 ts0 H0. apply String.eqb_neq. intros ->. apply Hx. now apply (in_map fst) in H0. }
        cbn [mapO]. rewrite K, A. split; auto. cbn [List.concat app map fst]. split; [now rewrite B |]. split.
        + intros t0 inp0 [H0 | H0].
          * injection H0 as <- <-. exists ts. rewrite String.eqb_refl. simpl. auto.
          * destruct (C _ _ H0) as (ts0 & X & Y). exists ts0. rewrite (Hne _ _ X). simpl. auto.
        + intros t0 ts0 [H0 | H0].
          * injection H0 as <- <-. now rewrite String.eqb_refl.
          * rewrite (Hne _ _ H0). eauto. }
    destruct (Hin (plain_schema f)) as (parts & e1 & A & B & C & D); auto. { apply Hwf. }
    destruct (construct_tables (plain_schema f) (f_defaults f) (dup_mode f) e1 (List.concat parts)) as (e & E & F); auto.
    { rewrite B. apply Hwf. }
    { intros t inp H. destruct (C _ _ H) as (ts & X & Y & Z). exists ts. rewrite Z. auto. }
    { intros t ts H Hno. exfalso. apply Hno. rewrite B. now apply (in_map fst) in H. }
    unfold pg_create, Pg.pg_create. rewrite Ha', String.eqb_refl, Hn, Hng, Hgens. cbn [andb List.length Nat.eqb].
    assert (exists missing, check_tables f db3 false = Ret missing) as (missing & ->).
    { unfold check_tables. destruct (forallb _ (plain_schema f)) eqn:Fc.
      - rewrite andb_false_r. eauto.
      - exfalso. apply not_true_iff_false in Fc. apply Fc. apply forallb_forall. intros [t ts] H. cbn [fst snd].
        destruct (Htab _ _ H) as (pt3 & _ & _ & -> & Hcols & _). apply forallb_forall. intros x Hx. apply mem_str_iff. auto. }
    cbn [bindO]. fold g. unfold act in g. fold g. rewrite A. cbn [bindO]. rewrite E. eexists. split; [reflexivity |].
    intros t ts H. rewrite <- (Hadj _ _ H). apply adjust_reordered. rewrite (F _ _ H). eauto.
  Qed.
End Trip.
