(** * Postgres: rows as they are stored, and when writing succeeds. *)
From Coq Require Import ZArith Bool List String Ascii Arith Lia Permutation.
From Verif Require Import PyVal PyValFacts PyDict PyDictFacts PyStr ListFacts TypeDict Data FindTypes FindTypesFacts FK Graph GraphFacts
  Obj ObjFacts ObjMore Factory FactoryFacts InfIO InfIOFacts Params Names NamesFacts Utils Json ObjRows JsonFacts TripFacts Pg PgFacts PgWrite PgTrip.
Import ListNotations.
Local Open Scope string_scope.
Local Open Scope list_scope.

Section Store.
  Variable date_of : value -> option Z.
  Variable pg_text : value -> string.
  Variable pg_num : string -> option num.
  Variable pg_stamp : string -> option Z.
  Variable pg_bool : string -> option bool.
  Variable pg_int : Z -> option Z.
  Variable pg_float : Z -> Z.
  Variable pg_other : string -> value -> option value.

  Let coerce := coerce pg_text pg_num pg_stamp pg_bool pg_int pg_float pg_other.
  Let default_value := default_value pg_text pg_num pg_stamp pg_bool pg_int pg_float pg_other.
  Let new_row := new_row pg_text pg_num pg_stamp pg_bool pg_int pg_float pg_other.
  Let insert_row := insert_row pg_text pg_num pg_stamp pg_bool pg_int pg_float pg_other.
  Let insert_all := insert_all pg_text pg_num pg_stamp pg_bool pg_int pg_float pg_other.
  Let write_data := write_data date_of pg_text pg_num pg_stamp pg_bool pg_int pg_float pg_other.
  Let given_cells := given_cells date_of.
  Let pg_data := pg_data date_of.
  Let pg_write_cell := pg_write_cell date_of.

  Variable f : factory.

  (** The row [r'] of the database table [pt] is what becomes of the row [r]: each
      cell is converted for writing and stored by its column; the column
      [active], if it counts, holds True; other columns hold their defaults. *)
  Definition stored_row (active : option string) (t : string) (ts : tschema) (pt : pgtable) (r r' : list value) : Prop :=
    List.length r' = List.length (pt_cols pt) /\
    forall c, In c (pt_cols pt) ->
      (c_notnull c = true -> pg_cell pt r' (c_name c) <> VNone) /\
      (forall x v, In (x, v) (combine (tfields ts) r) -> pg_name x = c_name c ->
         exists u, pg_write_cell f t x v = Ret u /\ coerce (c_type c) u = Some (pg_cell pt r' (c_name c))) /\
      ((forall x, In x (tfields ts) -> pg_name x <> c_name c) ->
         (active = Some (c_name c) -> coerce (c_type c) (VBool true) = Some (pg_cell pt r' (c_name c))) /\
         (active <> Some (c_name c) -> default_value c = Some (pg_cell pt r' (c_name c)))).

  Definition act_of (active : string) (db : pgdb) (t : string) : option string :=
    if mem_str t (active_tables db active) then Some active else None.

  Hypothesis Hd : decl_ok (f_decl f) = true.

  Lemma given_get : forall t ts r cells, names_ok f = true -> In (t, ts) (plain_schema f) -> List.length r = List.length (tfields ts) ->
    Forall2 (fun fx nv => fst nv = pg_name (fst fx) /\ pg_write_cell f t (fst fx) (snd fx) = Ret (snd nv)) (combine (tfields ts) r) cells ->
    map fst cells = map pg_name (tfields ts) /\
    (forall x v, In (x, v) (combine (tfields ts) r) -> exists u, dget String.eqb cells (pg_name x) = Some u /\ pg_write_cell f t x v = Ret u) /\
    forall y, (forall x, In x (tfields ts) -> pg_name x <> y) -> dget String.eqb cells y = None.
  Proof.
    intros t ts r cells Hn Hin L H. pose proof (field_names_NoDup f t ts Hn Hin) as Hnd.
    assert (map fst cells = map pg_name (tfields ts)) as En.
    { rewrite <- (map_fst_combine (tfields ts) r) by auto. clear - H. induction H as [| fx nv l m [H _] _ IH]; simpl; auto. now rewrite IH, H. }
    split; auto. split.
    - intros x v Hxv. destruct (Forall2_In_l _ _ _ _ H Hxv) as ([n u] & Hnu & E & W). cbn [fst snd] in *. subst n. exists u. split; auto.
      apply dget_str; auto. now rewrite En.
    - intros y Hy. apply dget_str_None. rewrite En. intros Hc. apply in_map_iff in Hc as (x & E & Hx). eapply Hy; eauto.
  Qed.

  Lemma row_stored : forall active actives t ts pt r g r', names_ok f = true -> In (t, ts) (plain_schema f) -> NoDup (map c_name (pt_cols pt)) ->
    List.length r = List.length (tfields ts) ->
    given_cells f active actives t ts r = Ret g -> new_row (pt_cols pt) g = Some r' ->
    stored_row (if mem_str t actives then Some active else None) t ts pt r r'.
  Proof.
    intros active actives t ts pt r g r' Hn Hin Hc L Hg Hr. apply given_spec in Hg as (cells & -> & Hg).
    destruct (given_get t ts r cells Hn Hin L Hg) as (G1 & G2 & G3). split.
    - apply new_row_spec in Hr. symmetry. eapply Forall2_length'; eauto.
    - intros c Hcin. pose proof (stored_cell _ _ _ _ _ _ _ pt _ r' c Hc Hr Hcin) as [S1 S2]. split; auto. split.
      + intros x v Hxv E. destruct (G2 _ _ Hxv) as (u & A & B). rewrite dget_app in S1. rewrite <- E in S1 at 1. rewrite A in S1. exists u. split; auto.
      + intros Hno. rewrite dget_app, (G3 _ Hno) in S1. destruct (mem_str t actives); cbn [dget] in S1.
        * split; intros Ea.
          -- injection Ea as ->. rewrite String.eqb_refl in S1. exact S1.
          -- destruct (String.eqb_spec active (c_name c)) as [E | N]; [exfalso; apply Ea; now rewrite E | exact S1].
        * split; [discriminate |]. intros _. exact S1.
  Qed.

  Lemma rows_exist : forall pt (P : column -> value -> Prop) r', NoDup (map c_name (pt_cols pt)) -> List.length r' = List.length (pt_cols pt) ->
    (forall c, In c (pt_cols pt) -> P c (pg_cell pt r' (c_name c))) -> Forall2 P (pt_cols pt) r'.
  Proof.
    intros pt P r' Hn L H. unfold pg_cell, dget_or in H. revert r' L H. induction (pt_cols pt) as [| c cols IH]; intros [| v r'] L H; try discriminate; constructor.
    - specialize (H c (or_introl eq_refl)). cbn [map combine dget] in H. now rewrite String.eqb_refl in H.
    - cbn [map] in Hn. apply NoDup_cons_iff in Hn as [Hx Hn]. apply IH; auto. intros c0 H0. specialize (H c0 (or_intror H0)). cbn [map combine dget] in H.
      destruct (String.eqb_spec (c_name c) (c_name c0)) as [E | _]; auto. exfalso. apply Hx. rewrite E. now apply in_map.
  Qed.

  Lemma stored_given : forall active actives t ts pt r r', names_ok f = true -> In (t, ts) (plain_schema f) -> NoDup (map c_name (pt_cols pt)) ->
    List.length r = List.length (tfields ts) ->
    (forall x, In x (tfields ts) -> In (pg_name x) (map c_name (pt_cols pt))) ->
    (In t actives -> forall x, In x (tfields ts) -> pg_name x <> active) ->
    stored_row (if mem_str t actives then Some active else None) t ts pt r r' ->
    exists g, given_cells f active actives t ts r = Ret g /\ new_row (pt_cols pt) g = Some r' /\ NoDup (map fst g) /\
      (forall x, In x (map fst g) -> (exists y, In y (tfields ts) /\ x = pg_name y) \/ In t actives /\ x = active).
  Proof.
    intros active actives t ts pt r r' Hn Hin Hc L Hcols Hact [Ls Hs].
    assert (exists cells, mapO (fun fx => bindO (pg_write_cell f t (fst fx) (snd fx)) (fun v => Ret (pg_name (fst fx), v))) (combine (tfields ts) r) = Ret cells) as (cells & Ec).
    { apply mapO_total. intros [x v] Hxv. cbn [fst snd]. assert (In x (tfields ts)) as Hx by (eapply in_combine_l; eauto).
      pose proof (Hcols _ Hx) as Hci. apply in_map_iff in Hci as (c & E & Hci). destruct (Hs c Hci) as (_ & W & _).
      destruct (W x v Hxv) as (u & A & _); auto. rewrite A. simpl. eauto. }
    exists (cells ++ (if mem_str t actives then [(active, VBool true)] else [])).
    assert (given_cells f active actives t ts r = Ret (cells ++ (if mem_str t actives then [(active, VBool true)] else []))) as Eg.
    { unfold given_cells, Pg.given_cells. fold pg_write_cell. rewrite Ec. reflexivity. }
    split; auto. pose proof Eg as Eg'. apply given_spec in Eg' as (cells' & E & Hg). apply app_inv_tail in E. subst cells'.
    destruct (given_get t ts r cells Hn Hin L Hg) as (G1 & G2 & G3).
    pose proof (field_names_NoDup f t ts Hn Hin) as Hnd. split; [| split].
    - apply new_row_spec. apply rows_exist; auto. intros c Hci. destruct (Hs c Hci) as (N & W & D). split; auto. rewrite dget_app.
      destruct (in_dec string_dec (c_name c) (map pg_name (tfields ts))) as [Hf | Hf].
      + apply in_map_iff in Hf as (x & E & Hx). rewrite <- (map_fst_combine (tfields ts) r) in Hx by auto.
        apply in_map_iff in Hx as ([x' v] & E' & Hxv). cbn [fst] in E'. subst x'. destruct (G2 _ _ Hxv) as (u & A & B). rewrite <- E at 1. rewrite A.
        destruct (W x v Hxv E) as (u' & B' & C). unfold pg_write_cell in *. rewrite B in B'. injection B' as <-. exact C.
      + assert (forall x, In x (tfields ts) -> pg_name x <> c_name c) as Hno. { intros x Hx E. apply Hf. rewrite <- E. now apply in_map. }
        rewrite (G3 _ Hno). destruct (D Hno) as [D1 D2]. destruct (mem_str t actives); cbn [dget].
        * destruct (String.eqb_spec active (c_name c)) as [E | Ne]; [apply D1; now rewrite E | apply D2; congruence].
        * apply D2. discriminate.
    - rewrite map_app, G1. destruct (mem_str t actives) eqn:M; [| now rewrite app_nil_r]. apply mem_str_iff in M. cbn [map fst]. apply NoDup_app_intro; auto.
      + constructor; [intros [] | constructor].
      + intros x Hx [<- | []]. apply in_map_iff in Hx as (y & E & Hy). eapply Hact; eauto.
    - intros x Hx. rewrite map_app, G1 in Hx. apply in_app_iff in Hx as [Hx | Hx].
      + left. apply in_map_iff in Hx as (y & E & Hy). eauto.
      + right. destruct (mem_str t actives) eqn:M; [| contradiction]. apply mem_str_iff in M. destruct Hx as [<- | []]. auto.
  Qed.

  Hypothesis Hw : fks_within (f_fks f) (map fst (plain_schema f)).

  (** ** C106: what is there after a call that returned *)

  Theorem write_exact : forall auto pre active d db db', db_wf db -> obj_ok (plain_schema f) d ->
    write_data f auto pre active d db = (true, db') ->
    (forall t ts, In (t, ts) (plain_schema f) -> exists pt rows,
       dget String.eqb db t = Some pt /\
       dget String.eqb db' t = Some (with_rows pt ((if String.eqb (dget_or String.eqb pre t "delete") "delete" then [] else pt_rows pt) ++ rows)) /\
       Forall2 (stored_row (act_of active db t) t ts pt) (full_rows (d t)) rows) /\
    forall t, ~ In t (map fst (plain_schema f)) -> dget String.eqb db' t = dget String.eqb db t.
  Proof.
    intros auto pre active d db db' [Hn Hdb] Hok H. destruct (write_data_ok _ _ _ _ _ _ _ _ f Hd Hw _ _ _ _ _ _ H) as (N & _ & _ & A & B). split; auto.
    intros t ts Hin. destruct (A _ _ Hin) as (pt & rows & G & _ & G' & F). exists pt, rows. split; auto. split; auto.
    assert (forall r, In r (full_rows (d t)) -> List.length r = List.length (tfields ts)) as Lr by (intros r; apply full_length; now apply Hok).
    assert (NoDup (map c_name (pt_cols pt))) as Nc. { apply (Hdb t). now apply dget_str in G. }
    clear G'. induction F as [| r r' l m (g & A1 & A2) _ IH]; constructor.
    - eapply row_stored; eauto. apply Lr. simpl. auto.
    - apply IH. intros; apply Lr; simpl; auto.
  Qed.

  (** ** C107: data that can be written *)

  Lemma before_cons : forall t l u v, u <> t -> v <> t -> before (t :: l) u v -> before l u v.
  Proof.
    intros t l u v Hu Hv (l1 & l2 & E & H). destruct l1 as [| a l1]; [destruct H |]. injection E as -> ->. exists l1, l2. split; auto.
    destruct H as [H | H]; auto. congruence.
  Qed.

  Lemma before_head : forall t l u, NoDup (t :: l) -> ~ before (t :: l) u t.
  Proof.
    intros t l u Hn (l1 & l2 & E & H). destruct l1 as [| a l1]; [destruct H |]. injection E as -> ->. apply NoDup_cons_iff in Hn as [Hn _]. apply Hn. apply in_app_iff. simpl. auto.
  Qed.

  Lemma delete_all_ok : forall pre l db, NoDup l -> NoDup (map fst db) -> (forall t, In t l -> dget String.eqb db t <> None) ->
    (forall u pt k, In (u, pt) db -> In k (pt_fks pt) -> In (g_table k) l -> deleted pre (g_table k) = true ->
       pt_rows pt = [] \/ before l u (g_table k) /\ deleted pre u = true) ->
    exists db', delete_all pre l db = (true, db').
  Proof.
    intros pre l. induction l as [| t l IH]; intros db Hl Hn Hex Href; cbn [delete_all]; eauto.
    fold (deleted pre t). pose proof Hl as Hl'. apply NoDup_cons_iff in Hl' as [Ht Hl'].
    assert (forall u pt k, In (u, pt) db -> u <> t -> In k (pt_fks pt) -> In (g_table k) l -> deleted pre (g_table k) = true ->
              pt_rows pt = [] \/ before l u (g_table k) /\ deleted pre u = true) as Hstep.
    { intros u pt k Hu Nu Hk Hg Hd'. destruct (Href u pt k Hu Hk) as [-> | [B D]]; simpl; auto. right. split; auto. apply before_cons in B; auto. intros E. now rewrite E in Hg. }
    destruct (deleted pre t) eqn:D.
    - unfold delete_rows. destruct (dget String.eqb db t) as [pt |] eqn:G; [| exfalso; apply (Hex t); simpl; auto].
      set (db1 := dset String.eqb db t (with_rows pt [])).
      assert (NoDup (map fst db1)) as Hn1 by (now apply dset_NoDup).
      assert (forall u pu, In (u, pu) db1 -> (u = t /\ pu = with_rows pt []) \/ (u <> t /\ In (u, pu) db)) as Hin1.
      { intros u pu H. apply (dget_str _ _ _ Hn1) in H. unfold db1 in H. rewrite dget_dset_str in H. destruct (String.eqb_spec t u) as [<- | N].
        - injection H as <-. auto.
        - right. split; auto. now apply dget_str in H. }
      cbv zeta. assert (forallb (fun up => forallb (fun k => negb (String.eqb (g_table k) t) ||
                                         forallb (fk_satisfied db1 (snd up) k) (pt_rows (snd up))) (pt_fks (snd up))) db1 = true) as ->.
      { apply forallb_forall. intros [u pu] Hu. cbn [snd]. apply forallb_forall. intros k Hk. destruct (String.eqb_spec (g_table k) t) as [E | N]; [| reflexivity].
        cbn [negb orb]. destruct (Hin1 _ _ Hu) as [[-> ->] | [Nu Hu']]; [reflexivity |].
        destruct (Href u pu k Hu' Hk) as [-> | [B _]]; simpl; auto; [now rewrite E |]. rewrite E in B. exfalso. eapply before_head; eauto. }
      apply IH; auto.
      + intros u Hu. unfold db1. rewrite dget_dset_str. destruct (String.eqb t u); [discriminate |]. apply Hex. simpl. auto.
      + intros u pu k Hu Hk Hg Hd'. destruct (Hin1 _ _ Hu) as [[-> ->] | [Nu Hu']]; eauto.
    - apply IH; auto.
      + intros u Hu. apply Hex. simpl. auto.
      + intros u pu k Hu Hk Hg Hd'. destruct (string_dec u t) as [-> | Nu]; [| eapply Hstep; eauto].
        destruct (Href t pu k Hu Hk) as [-> | [_ B]]; simpl; auto. congruence.
  Qed.

  Lemma insert_all_app : forall l1 l2 db db1, insert_all l1 db = (true, db1) -> insert_all (l1 ++ l2) db = insert_all l2 db1.
  Proof.
    unfold insert_all. induction l1 as [| tg l1 IH]; intros l2 db db1 H; cbn [Pg.insert_all app] in *.
    - now injection H as ->.
    - destruct (Pg.insert_row _ _ _ _ _ _ _ db (fst tg) (snd tg)); [now apply IH | discriminate].
  Qed.

  Lemma fk_satisfied_dget : forall db db' pt pt' k r, dget String.eqb db (g_table k) = dget String.eqb db' (g_table k) -> pt_cols pt = pt_cols pt' ->
    fk_satisfied db pt k r = fk_satisfied db' pt' k r.
  Proof. intros db db' pt pt' k r E E'. unfold fk_satisfied, pg_cells, pg_cell. now rewrite E, E'. Qed.

  Lemma insert_table : forall t gs rs db pt, dget String.eqb db t = Some pt ->
    Forall2 (fun g r => new_row (pt_cols pt) g = Some r /\ NoDup (map fst g) /\ forall x, In x (map fst g) -> In x (map c_name (pt_cols pt))) gs rs ->
    (pt_key pt <> [] -> NoDup (map (fun r => pg_cells pt r (pt_key pt)) (pt_rows pt ++ rs)) /\
       forall r x, In r rs -> In x (pt_key pt) -> pg_cell pt r x <> VNone) ->
    (forall k r, In k (pt_fks pt) -> In r rs -> g_table k <> t /\ fk_satisfied db pt k r = true) ->
    exists db', insert_all (map (pair t) gs) db = (true, db') /\
      forall u, dget String.eqb db' u = if String.eqb t u then Some (with_rows pt (pt_rows pt ++ rs)) else dget String.eqb db u.
  Proof.
    intros t gs. induction gs as [| g gs IH]; intros rs db pt G H H0 H1; inversion H as [| g' r gs' rs' (N & Nd & Hx) H']; subst.
    - exists db. split; [reflexivity |]. intros u. rewrite app_nil_r, with_own_rows. now destruct (String.eqb_spec t u) as [<- |].
    - unfold insert_all. cbn [map Pg.insert_all fst snd]. unfold Pg.insert_row. rewrite G.
      assert (distinct_b (map fst g) && forallb (fun x => mem_str x (map c_name (pt_cols pt))) (map fst g) = true) as ->.
      { apply andb_true_iff. split; [now apply distinct_b_iff |]. apply forallb_forall. intros x Hxg. apply mem_str_iff. auto. }
      fold new_row. rewrite N. cbv zeta. set (db1 := dset String.eqb db t (with_rows pt (pt_rows pt ++ [r]))).
      assert (key_free pt r = true) as ->.
      { unfold key_free. destruct (pt_key pt) as [| k0 ks] eqn:K; auto. destruct H0 as [K1 K2]; [discriminate |]. apply andb_true_iff. split.
        - apply forallb_forall. intros v Hv. apply in_map_iff in Hv as (x & <- & Hx0). apply negb_true_iff, value_eqb_neq. apply K2; simpl; auto.
        - apply negb_true_iff. apply not_true_is_false. intros E. apply existsb_exists in E as (r' & Hr' & E). apply (list_eqb_eq value_eqb value_eqb_eq) in E.
          rewrite map_app in K1. apply (NoDup_app_disj _ _ (pg_cells pt r (k0 :: ks)) K1); [rewrite <- E; now apply (in_map (fun r => pg_cells pt r (k0 :: ks))) | simpl; auto]. }
      assert (forallb (fun k => fk_satisfied db1 pt k r) (pt_fks pt) = true) as ->.
      { apply forallb_forall. intros k Hk. destruct (H1 k r Hk) as [Ng S]; [simpl; auto |]. rewrite <- S. apply fk_satisfied_dget; auto.
        unfold db1. rewrite dget_dset_str. destruct (String.eqb_spec t (g_table k)); congruence. }
      cbn [andb]. destruct (IH rs' db1 (with_rows pt (pt_rows pt ++ [r]))) as (db' & E & Q).
      + unfold db1. now rewrite dget_dset_str, String.eqb_refl.
      + exact H'.
      + cbn [pt_key with_rows]. intros Hk. destruct (H0 Hk) as [K1 K2]. split.
        * cbn [pt_rows with_rows]. rewrite <- app_assoc. exact K1.
        * intros r0 x Hr0. apply K2. simpl. auto.
      + cbn [pt_fks with_rows]. intros k r0 Hk Hr0. destruct (H1 k r0 Hk) as [Ng S]; [simpl; auto |]. split; auto. rewrite <- S. apply fk_satisfied_dget; auto.
        unfold db1. rewrite dget_dset_str. destruct (String.eqb_spec t (g_table k)); congruence.
      + exists db'. split; [exact E |]. intros u. rewrite Q. unfold db1. rewrite dget_dset_str. destruct (String.eqb t u); auto.
        unfold with_rows. cbn [pt_cols pt_key pt_fks pt_rows]. now rewrite <- app_assoc.
  Qed.

  Definition kept_rows (pre : list (string * string)) (t : string) (pt : pgtable) : list (list value) :=
    if String.eqb (dget_or String.eqb pre t "delete") "delete" then [] else pt_rows pt.

  Theorem write_possible : forall auto pre active d db store,
    names_ok f = true -> no_generics f = true -> pg_name active = active -> db_wf db -> obj_ok (plain_schema f) d ->
    (forall t v, In (t, v) pre -> is_table f t = true /\ (v = "delete" \/ v = "append")) ->
    (forall t ts, In (t, ts) (plain_schema f) -> exists pt, dget String.eqb db t = Some pt /\
       (forall x, In x (tfields ts) -> In (pg_name x) (map c_name (pt_cols pt))) /\
       (act_of active db t = None \/ forall x, In x (tfields ts) -> pg_name x <> active) /\
       Forall2 (stored_row (act_of active db t) t ts pt) (full_rows (d t)) (store t) /\
       (pt_key pt <> [] -> NoDup (map (fun r => pg_cells pt r (pt_key pt)) (kept_rows pre t pt ++ store t)) /\
          forall r x, In r (store t) -> In x (pt_key pt) -> pg_cell pt r x <> VNone) /\
       forall k, In k (pt_fks pt) ->
         (exists k0, In k0 (f_fks f) /\ fk_native k0 = t /\ fk_foreign k0 = g_table k) /\
         forall r, In r (store t) -> In VNone (pg_cells pt r (g_native k)) \/
           exists pu r', dget String.eqb db (g_table k) = Some pu /\ In r' (kept_rows pre (g_table k) pu ++ store (g_table k)) /\
             pg_cells pu r' (g_foreign k) = pg_cells pt r (g_native k)) ->
    (forall k, In k (f_fks f) -> ~ reaches (f_fks f) (fk_foreign k) (fk_native k)) ->
    (forall k, In k (f_fks f) -> dget_or String.eqb pre (fk_foreign k) "delete" = "delete" -> dget_or String.eqb pre (fk_native k) "delete" = "delete") ->
    (forall u pu k, In (u, pu) db -> ~ In u (map fst (plain_schema f)) -> In k (pt_fks pu) -> ~ In (g_table k) (map fst (plain_schema f))) ->
    exists db', write_data f auto pre active d db = (true, db').
  Proof.
    intros auto pre active d db store Hn Hg Ha [Hdn Hdb] Hok Hpre Htab Hacyc Hdel Hout.
    assert (forall t, In t (ordered_tables f) -> exists ts, In (t, ts) (plain_schema f)) as Hot by (intros t; apply (ordered_ts f Hd Hw)).
    assert (forall k, In k (f_fks f) -> In (fk_native k) (map fst (plain_schema f)) -> before (ordered_tables f) (fk_foreign k) (fk_native k)) as Hbef.
    { intros k Hk Hin. apply (proj2 (ordered_spec f Hd Hw)); auto. exists k. auto. }
    unfold write_data, Pg.write_data. rewrite Ha, String.eqb_refl, Hn, Hg. cbn [andb].
    assert (exists m, check_tables f db true = Ret m) as (m & ->).
    { unfold check_tables. assert (forallb (fun tts => match dget String.eqb db (fst tts) with
                           | None => true
                           | Some pt => forallb (fun x => mem_str (pg_name x) (map c_name (pt_cols pt))) (tfields (snd tts))
                           end) (plain_schema f) = true) as ->.
      { apply forallb_forall. intros [t ts] Hin. destruct (Htab _ _ Hin) as (pt & G & Hc & _). cbn [fst snd]. rewrite G. apply forallb_forall. intros x Hx. apply mem_str_iff. auto. }
      assert (filter (fun t => negb (dmem String.eqb db t)) (map fst (plain_schema f)) = []) as ->.
      { assert (forall t, In t (map fst (plain_schema f)) -> negb (dmem String.eqb db t) = false) as Hf.
        { intros t Ht. apply in_map_iff in Ht as ([t' ts] & E & Ht). cbn [fst] in E. subst t'. destruct (Htab _ _ Ht) as (pt & G & _). unfold dmem. now rewrite G. }
        clear - Hf. induction (map fst (plain_schema f)) as [| t l IH]; simpl; auto. rewrite (Hf t) by (simpl; auto). apply IH. intros; apply Hf; simpl; auto. }
      simpl. eauto. }
    unfold handle_preexisting.
    assert (forallb (fun tv => is_table f (fst tv) && mem_str (snd tv) ["delete"; "append"]) pre = true) as ->.
    { apply forallb_forall. intros [t v] Hin. destruct (Hpre _ _ Hin) as [E Hv]. cbn [fst snd]. rewrite E. apply mem_str_iff. simpl. destruct Hv; auto. }
    destruct (delete_all_ok pre (rev (ordered_tables f)) db) as (db1 & Ed).
    - apply NoDup_rev. now apply ordered_NoDup.
    - exact Hdn.
    - intros t Ht. apply in_rev in Ht. apply Hot in Ht as (ts & Ht). destruct (Htab _ _ Ht) as (pt & G & _). congruence.
    - intros u pu k Hu Hk Hgt Hdl. apply in_rev in Hgt. apply (ordered_In f Hd Hw) in Hgt.
      destruct (in_dec string_dec u (map fst (plain_schema f))) as [Hus | Hus]; [| exfalso; eapply Hout; eauto].
      right. apply in_map_iff in Hus as ([u' ts] & E & Hus). cbn [fst] in E. subst u'. destruct (Htab _ _ Hus) as (pt & G & _ & _ & _ & _ & F).
      apply (dget_str _ _ _ Hdn) in Hu. rewrite Hu in G. injection G as <-. destruct (F k Hk) as [(k0 & Hk0 & E1 & E2) _].
      assert (before (ordered_tables f) (g_table k) u) as (l1 & l2 & El & B).
      { rewrite <- E2, <- E1. apply Hbef; auto. rewrite E1. now apply (in_map fst) in Hus. }
      split.
      + apply in_split in B as (l3 & l4 & ->). rewrite El, rev_app_distr. cbn [rev]. rewrite rev_app_distr. cbn [rev]. exists ((rev l2 ++ [u]) ++ rev l4), (rev l3). split.
        * rewrite <- !app_assoc. reflexivity.
        * apply in_app_iff. left. apply in_app_iff. simpl. auto.
      + unfold deleted in *. apply String.eqb_eq. rewrite <- E1. apply Hdel; auto. rewrite E2. now apply String.eqb_eq.
    - rewrite Ed. apply delete_all_spec in Ed as (l1 & l2 & El & B & Hdb1). rewrite (B eq_refl), app_nil_r in El. subst l1. clear B.
      assert (forall t ts pt, In (t, ts) (plain_schema f) -> dget String.eqb db t = Some pt -> dget String.eqb db1 t = Some (with_rows pt (kept_rows pre t pt))) as Hbase.
      { intros t ts pt Hin G. rewrite Hdb1, G. assert (mem_str t (rev (ordered_tables f)) = true) as ->.
        { apply mem_str_iff. rewrite <- in_rev. apply (ordered_ts f Hd Hw). eauto. }
        cbn [andb]. unfold deleted, kept_rows. destruct (String.eqb _ _); auto. now rewrite with_own_rows. }
      assert (forall t ts, In (t, ts) (plain_schema f) -> exists gs, mapO (given_cells f active (active_tables db active) t ts) (full_rows (d t)) = Ret gs /\
        forall pt, dget String.eqb db t = Some pt ->
          Forall2 (fun g r => new_row (pt_cols pt) g = Some r /\ NoDup (map fst g) /\ forall x, In x (map fst g) -> In x (map c_name (pt_cols pt))) gs (store t)) as Hgs.
      { intros t ts Hin. destruct (Htab _ _ Hin) as (pt & G & Hc & Hact & F & _).
        assert (forall r, In r (full_rows (d t)) -> List.length r = List.length (tfields ts)) as Lr by (intros r; apply full_length; now apply Hok).
        assert (NoDup (map c_name (pt_cols pt))) as Nc. { apply (Hdb t). now apply dget_str in G. }
        assert (exists gs, Forall2 (fun r g => given_cells f active (active_tables db active) t ts r = Ret g) (full_rows (d t)) gs /\
          Forall2 (fun g r => new_row (pt_cols pt) g = Some r /\ NoDup (map fst g) /\ forall x, In x (map fst g) -> In x (map c_name (pt_cols pt))) gs (store t)) as (gs & A1 & A2).
        { induction F as [| r r' l ms Hs _ IH]; [exists []; split; constructor |].
          destruct IH as (gs & A1 & A2); [intros; apply Lr; simpl; auto |].
          destruct (stored_given active (active_tables db active) t ts pt r r') as (g & B1 & B2 & B3 & B4); auto.
          - apply Lr. simpl. auto.
          - intros Hact'. destruct Hact as [Hact | Hact]; auto. exfalso. unfold act_of in Hact. apply mem_str_iff in Hact'. now rewrite Hact' in Hact.
          - exists (g :: gs). split; constructor; auto. split; auto. split; auto. intros x Hx. destruct (B4 x Hx) as [(y & Hy & ->) | [Ht ->]]; auto.
            unfold active_tables in Ht. destruct (String.eqb active ""); [contradiction |]. apply in_map_iff in Ht as ([t' pt'] & E & Ht). cbn [fst] in E. subst t'.
            apply filter_In in Ht as [Ht M]. apply (dget_str _ _ _ Hdn) in Ht. rewrite G in Ht. injection Ht as <-. now apply mem_str_iff in M. }
        exists gs. split; [now apply mapO_Forall2 |]. intros pt' G'. rewrite G in G'. injection G' as <-. exact A2. }
      assert (forall prev post, ordered_tables f = prev ++ post -> forall dbx,
        (forall t ts pt, In (t, ts) (plain_schema f) -> dget String.eqb db t = Some pt ->
           dget String.eqb dbx t = Some (with_rows pt (kept_rows pre t pt ++ if mem_str t prev then store t else []))) ->
        exists l db2, mapO (fun t => mapO (fun r => bindO (given_cells f active (active_tables db active) t (ts_of (plain_schema f) t) r) (fun g => Ret (t, g)))
                            (full_rows (d t))) post = Ret l /\ insert_all (List.concat l) dbx = (true, db2)) as Hall.
      { intros prev post. revert prev. induction post as [| t post IH]; intros prev Eo dbx Hinv.
        - exists [], dbx. split; reflexivity.
        - assert (In t (ordered_tables f)) as Hto by (rewrite Eo; apply in_app_iff; simpl; auto).
          destruct (Hot _ Hto) as (ts & Hin). destruct (Hgs _ _ Hin) as (gs & Eg & Fg). destruct (Htab _ _ Hin) as (pt & G & _ & _ & _ & Hk & Hf).
          pose proof (ordered_NoDup f Hd Hw) as Hnd. rewrite Eo in Hnd.
          assert (mem_str t prev = false) as Hm.
          { apply mem_str_false. intros Hc. apply NoDup_remove_2 in Hnd. apply Hnd, in_app_iff. auto. }
          pose proof (Hinv _ _ _ Hin G) as G1. rewrite Hm, app_nil_r in G1.
          destruct (insert_table t gs (store t) dbx _ G1) as (db2 & E2 & Q2).
          + cbn [pt_cols with_rows]. now apply Fg.
          + cbn [pt_key pt_rows with_rows]. exact Hk.
          + cbn [pt_fks with_rows]. intros k r Hkin Hr. destruct (Hf k Hkin) as [(k0 & Hk0 & E1 & E2) Hs].
            assert (before (ordered_tables f) (g_table k) t) as (p1 & p2 & Ep & Bp).
            { rewrite <- E2, <- E1. apply Hbef; auto. rewrite E1. now apply (in_map fst) in Hin. }
            assert (p1 = prev) as ->.
            { rewrite Eo in Ep. symmetry. exact (split_unique t _ _ _ _ Hnd Ep). }
            split. { intros Ec. rewrite Ec in Bp. apply mem_str_iff in Bp. congruence. }
            unfold fk_satisfied. apply orb_true_iff. destruct (Hs r Hr) as [Hnull | (pu & r' & Gu & Hr' & Er)].
            * left. apply existsb_exists. exists VNone. split; auto.
            * right. assert (In (g_table k) (ordered_tables f)) as Hu by (rewrite Ep; apply in_app_iff; auto).
              destruct (Hot _ Hu) as (us & Hus). rewrite (Hinv _ _ _ Hus Gu). apply mem_str_iff in Bp. rewrite Bp. apply existsb_exists. exists r'. split; auto.
              apply (list_eqb_eq value_eqb value_eqb_eq). exact Er.
          + destruct (IH (prev ++ [t])) with (dbx := db2) as (l & db3 & E3 & E4).
            * now rewrite <- app_assoc.
            * intros u us pu Hus Gu. rewrite Q2. destruct (String.eqb_spec t u) as [<- | Nu].
              -- rewrite G in Gu. injection Gu as <-. assert (mem_str t (prev ++ [t]) = true) as -> by (apply mem_str_iff, in_app_iff; simpl; auto). reflexivity.
              -- rewrite (Hinv _ _ _ Hus Gu). assert (mem_str u (prev ++ [t]) = mem_str u prev) as ->; auto.
                 destruct (mem_str u prev) eqn:M.
                 ++ apply mem_str_iff, in_app_iff. left. now apply mem_str_iff.
                 ++ apply mem_str_false. intros Hc. apply in_app_iff in Hc as [Hc | [Hc | []]]; auto. apply mem_str_iff in Hc. congruence.
            * exists (map (pair t) gs :: l), db3. split.
              -- cbn [mapO]. rewrite (ts_of_In _ t ts) by (auto; now apply plain_wf).
                 assert (mapO (fun r => bindO (given_cells f active (active_tables db active) t ts r) (fun g => Ret (t, g))) (full_rows (d t)) = Ret (map (pair t) gs)) as Em.
                 { apply mapO_Forall2. apply mapO_Forall2 in Eg. clear - Eg. induction Eg as [| r g l m E _ IH]; constructor; auto. rewrite E. reflexivity. }
                 rewrite Em, E3. reflexivity.
              -- cbn [List.concat]. rewrite (insert_all_app _ _ _ _ E2). exact E4. }
      destruct (Hall [] (ordered_tables f) eq_refl db1) as (l & db2 & E1 & E2).
      { intros t ts pt Hin G. simpl. rewrite app_nil_r. eauto. }
      unfold pg_data, Pg.pg_data. fold given_cells. rewrite E1. cbn [bindO]. fold insert_all. rewrite E2. eauto.
  Qed.
End Store.
