(** * Postgres: what write_data leaves in the database. *)
From Coq Require Import ZArith Bool List String Ascii Arith Lia Permutation.
From Verif Require Import PyVal PyValFacts PyDict PyDictFacts PyStr ListFacts TypeDict Data FindTypes FindTypesFacts FK Graph GraphFacts
  Obj ObjFacts ObjMore Factory FactoryFacts InfIO InfIOFacts Params Names NamesFacts Utils Json ObjRows JsonFacts TripFacts Pg PgFacts.
Import ListNotations.
Local Open Scope string_scope.
Local Open Scope list_scope.

(** Tables have distinct names, the columns of a table too, and a row has one
    cell per column. *)
Definition db_wf (db : pgdb) : Prop :=
  NoDup (map fst db) /\
  forall t pt, In (t, pt) db -> NoDup (map c_name (pt_cols pt)) /\ forall r, In r (pt_rows pt) -> List.length r = List.length (pt_cols pt).

Lemma with_own_rows : forall pt, with_rows pt (pt_rows pt) = pt.
Proof. intros [a b c d]. reflexivity. Qed.

Lemma dget_dset_str : forall {V} (l : list (string * V)) t v u,
  dget String.eqb (dset String.eqb l t v) u = if String.eqb t u then Some v else dget String.eqb l u.
Proof.
  induction l as [| [k w] l IH]; intros t v u; simpl.
  - destruct (String.eqb t u); auto.
  - destruct (String.eqb_spec k t) as [-> | N]; simpl.
    + destruct (String.eqb t u); auto.
    + rewrite IH. destruct (String.eqb_spec k u) as [-> | M]; auto. destruct (String.eqb_spec t u) as [-> | _]; auto. contradiction.
Qed.

Lemma dset_NoDup : forall {V} (l : list (string * V)) t v, NoDup (map fst l) -> NoDup (map fst (dset String.eqb l t v)).
Proof.
  induction l as [| [k w] l IH]; intros t v H; simpl; [constructor; [intros [] | constructor] |].
  cbn [map fst] in H. apply NoDup_cons_iff in H as [H1 H2]. destruct (String.eqb_spec k t) as [-> | N]; simpl.
  - constructor; auto.
  - constructor; auto. rewrite dset_keys. intros [H | H]; auto.
Qed.

Section Write.
  Variable date_of : value -> option Z.
  Variable float_of : value -> option value.
  Variable pg_text : value -> string.
  Variable pg_num : string -> option num.
  Variable pg_stamp : string -> option Z.
  Variable pg_bool : string -> option bool.
  Variable pg_int : Z -> option Z.
  Variable pg_float : Z -> Z.
  Variable pg_other : string -> value -> option value.

  Let coerce := coerce pg_text pg_num pg_stamp pg_bool pg_int pg_float pg_other.
  Let default_value := default_value pg_text pg_num pg_stamp pg_bool pg_int pg_float pg_other.
  Let new_row := new_row pg_text pg_num pg_stamp pg_bool pg_int pg_float pg_other.
  Let insert_row := insert_row pg_text pg_num pg_stamp pg_bool pg_int pg_float pg_other.
  Let insert_all := insert_all pg_text pg_num pg_stamp pg_bool pg_int pg_float pg_other.
  Let write_data := write_data date_of pg_text pg_num pg_stamp pg_bool pg_int pg_float pg_other.
  Let given_cells := given_cells date_of.
  Let pg_data := pg_data date_of.
  Let pg_write_cell := pg_write_cell date_of.

  (** ** One row *)

  Definition cell_of (given : list (string * value)) (c : column) (v : value) : Prop :=
    (match dget String.eqb given (c_name c) with Some w => coerce (c_type c) w | None => default_value c end) = Some v /\
    (c_notnull c = true -> v <> VNone).

  Lemma new_row_spec : forall given cols r, new_row cols given = Some r <-> Forall2 (cell_of given) cols r.
  Proof.
    intros given. unfold new_row. induction cols as [| c cols IH]; intros r; cbn [Pg.new_row].
    - split; [intros [= <-]; constructor | intros H; inversion H; auto].
    - fold (coerce (c_type c)). fold (default_value c). split.
      + intros H. destruct (match dget String.eqb given (c_name c) with Some v => coerce (c_type c) v | None => default_value c end) as [v |] eqn:E; [| discriminate].
        destruct (Pg.new_row pg_text pg_num pg_stamp pg_bool pg_int pg_float pg_other cols given) as [r' |] eqn:F; [| discriminate].
        destruct (c_notnull c && value_eqb v VNone) eqn:N; [discriminate |]. injection H as <-. constructor; [| now apply IH].
        split; auto. intros Hn ->. rewrite Hn in N. discriminate.
      + intros H. inversion H as [| ? v ? r' [A B] C]; subst. rewrite A. apply IH in C. rewrite C.
        destruct (c_notnull c && value_eqb v VNone) eqn:N; auto. apply andb_true_iff in N as [N1 N2]. exfalso. apply B; auto. now apply value_eqb_eq.
  Qed.

  Lemma insert_row_spec : forall db t g db', insert_row db t g = Some db' ->
    exists pt r, dget String.eqb db t = Some pt /\ NoDup (map fst g) /\ (forall x, In x (map fst g) -> In x (map c_name (pt_cols pt))) /\
      new_row (pt_cols pt) g = Some r /\ key_free pt r = true /\
      (forall k, In k (pt_fks pt) -> fk_satisfied db' pt k r = true) /\
      db' = dset String.eqb db t (with_rows pt (pt_rows pt ++ [r])).
  Proof.
    intros db t g db' H. unfold insert_row, Pg.insert_row in H. destruct (dget String.eqb db t) as [pt |]; [| discriminate].
    destruct (distinct_b (map fst g) && _) eqn:E; [| discriminate]. apply andb_true_iff in E as [E1 E2].
    fold new_row in H. destruct (new_row (pt_cols pt) g) as [r |] eqn:N; [| discriminate]. cbv zeta in H.
    destruct (key_free pt r && _) eqn:K; [| discriminate]. injection H as <-. apply andb_true_iff in K as [K1 K2]. rewrite forallb_forall in K2, E2.
    exists pt, r. split; auto. split; [now apply distinct_b_iff |]. split; [intros x Hx; apply mem_str_iff; auto |]. auto 10.
  Qed.

  Lemma insert_all_spec : forall l db b db', insert_all l db = (b, db') ->
    exists l1 l2, l = l1 ++ l2 /\ (b = true -> l2 = []) /\ (b = false -> l2 <> []) /\
      (forall tg, In tg l1 -> dget String.eqb db (fst tg) <> None) /\
      forall t, match dget String.eqb db t with
                | None => dget String.eqb db' t = None
                | Some pt => exists rows,
                    Forall2 (fun g r => new_row (pt_cols pt) g = Some r) (map snd (filter (fun tg => String.eqb (fst tg) t) l1)) rows /\
                    dget String.eqb db' t = Some (with_rows pt (pt_rows pt ++ rows))
                end.
  Proof.
    induction l as [| [u g] l IH]; intros db b db' H; unfold insert_all in H; cbn [Pg.insert_all] in H.
    - injection H as <- <-. exists [], []. split; auto. split; auto. split; [discriminate |]. split; [intros ? [] |]. intros t.
      destruct (dget String.eqb db t) as [pt |] eqn:E; auto. exists []. rewrite app_nil_r, with_own_rows. split; [constructor | auto].
    - fold insert_row in H. fold insert_all in H. cbn [fst snd] in H. destruct (insert_row db u g) as [db1 |] eqn:E.
      + apply insert_row_spec in E as (pt & r & G & _ & _ & N & _ & _ & ->). apply IH in H as (l1 & l2 & -> & B & B' & D & H).
        exists ((u, g) :: l1), l2. split; auto. split; auto. split; auto. split.
        { intros tg [<- | Hin]; cbn [fst]; [congruence |]. specialize (D _ Hin). rewrite dget_dset_str in D.
          destruct (String.eqb_spec u (fst tg)) as [<- | _]; [congruence | auto]. }
        intros t. specialize (H t). rewrite dget_dset_str in H. cbn [filter fst map snd].
        destruct (String.eqb_spec u t) as [Eu | Nt]; [rewrite <- Eu in * |].
        * rewrite G. destruct H as (rows & F & Hd). cbn [pt_cols with_rows] in F. cbn [map snd]. exists (r :: rows). split; [constructor; auto |].
          rewrite Hd. unfold with_rows. cbn [pt_cols pt_key pt_fks pt_rows]. now rewrite <- app_assoc.
        * exact H.
      + injection H as <- <-. exists [], ((u, g) :: l). split; auto. split; [discriminate |]. split; [discriminate |]. split; [intros ? [] |]. intros t.
        destruct (dget String.eqb db t) as [pt |] eqn:G; auto. exists []. rewrite app_nil_r, with_own_rows. split; [constructor | auto].
  Qed.

  (** ** Deleting *)

  Definition deleted (pre : list (string * string)) (t : string) : bool := String.eqb (dget_or String.eqb pre t "delete") "delete".

  Lemma delete_all_spec : forall pre l db b db', delete_all pre l db = (b, db') ->
    exists l1 l2, l = l1 ++ l2 /\ (b = true -> l2 = []) /\ forall t,
      dget String.eqb db' t = match dget String.eqb db t with
                              | None => None
                              | Some pt => Some (if mem_str t l1 && deleted pre t then with_rows pt [] else pt)
                              end.
  Proof.
    intros pre. induction l as [| u l IH]; intros db b db' H; cbn [delete_all] in H.
    - injection H as <- <-. exists [], []. split; auto. split; auto. intros t. simpl. now destruct (dget String.eqb db t).
    - fold (deleted pre u) in H. destruct (deleted pre u) eqn:D.
      + unfold delete_rows in H. destruct (dget String.eqb db u) as [pt |] eqn:G.
        2: { injection H as <- <-. exists [], (u :: l). split; auto. split; [discriminate |]. intros t. simpl. now destruct (dget String.eqb db t). }
        cbv zeta in H. destruct (forallb _ _) in H.
        2: { injection H as <- <-. exists [], (u :: l). split; auto. split; [discriminate |]. intros t. simpl. now destruct (dget String.eqb db t). }
        apply IH in H as (l1 & l2 & -> & B & H). exists (u :: l1), l2. split; auto. split; auto. intros t. rewrite H, dget_dset_str.
        cbn [mem_str existsb]. unfold mem_str. cbn [existsb]. destruct (String.eqb_spec u t) as [<- | N].
        * rewrite G, D. rewrite String.eqb_refl. cbn [orb andb]. f_equal. destruct (existsb (String.eqb u) l1); cbn [andb]; auto.
        * destruct (String.eqb_spec t u); [congruence |]. reflexivity.
      + apply IH in H as (l1 & l2 & -> & B & H). exists (u :: l1), l2. split; auto. split; auto. intros t. rewrite H.
        unfold mem_str. cbn [existsb]. destruct (String.eqb_spec t u) as [-> | N]; auto. rewrite D, !andb_false_r. reflexivity.
  Qed.

  (** ** The cells that are written *)

  Lemma given_spec : forall f active actives t ts r g, given_cells f active actives t ts r = Ret g ->
    exists cells, g = cells ++ (if mem_str t actives then [(active, VBool true)] else []) /\
      Forall2 (fun fx nv => fst nv = pg_name (fst fx) /\ pg_write_cell f t (fst fx) (snd fx) = Ret (snd nv)) (combine (tfields ts) r) cells.
  Proof.
    intros f active actives t ts r g H. unfold given_cells, Pg.given_cells in H. apply bindO_ret in H as (cells & A & H). injection H as <-.
    exists cells. split; auto. apply mapO_Forall2 in A. induction A as [| fx nv l m A _ IH]; constructor; auto.
    apply bindO_ret in A as (v & A & E). injection E as <-. auto.
  Qed.

  Lemma pg_data_spec : forall f active actives d l, NoDup (ordered_tables f) -> pg_data f active actives d = Ret l ->
    (forall tg, In tg l -> In (fst tg) (ordered_tables f)) /\
    forall t, exists gs, map snd (filter (fun tg => String.eqb (fst tg) t) l) = gs /\
      (In t (ordered_tables f) -> mapO (given_cells f active actives t (ts_of (plain_schema f) t)) (full_rows (d t)) = Ret gs) /\
      (~ In t (ordered_tables f) -> gs = []).
  Proof.
    intros f active actives d l Hn H. unfold pg_data, Pg.pg_data in H. apply bindO_ret in H as (parts & A & H). injection H as <-.
    apply mapO_Forall2 in A. revert A Hn. generalize (ordered_tables f) as ot. intros ot A. induction A as [| u part ot parts A _ IH]; intros Hn.
    - split; [intros ? [] |]. intros t. exists []. simpl. split; auto. split; [intros [] | auto].
    - apply NoDup_cons_iff in Hn as [Hu Hn]. destruct (IH Hn) as [IH1 IH2]. fold given_cells in A.
      assert (forall tg, In tg part -> fst tg = u) as Hp.
      { intros tg Htg. apply mapO_Forall2 in A. destruct (Forall2_In_r _ _ _ _ A Htg) as (r & _ & E). apply bindO_ret in E as (g & _ & E). now injection E as <-. }
      assert (mapO (given_cells f active actives u (ts_of (plain_schema f) u)) (full_rows (d u)) = Ret (map snd part)) as Hm.
      { apply mapO_Forall2 in A. apply mapO_Forall2. clear - A. induction A as [| r tg l m A _ IH]; simpl; constructor; auto.
        apply bindO_ret in A as (g & A & E). injection E as <-. exact A. }
      cbn [List.concat]. split.
      { intros tg Htg. apply in_app_iff in Htg as [Htg | Htg]; simpl; [left; symmetry; auto | right; auto]. }
      intros t. rewrite filter_app, map_app. destruct (IH2 t) as (gs & E1 & E2 & E3).
      destruct (string_dec u t) as [<- | N].
      + assert (filter (fun tg => String.eqb (fst tg) u) part = part) as ->.
        { clear - Hp. induction part as [| tg part IH]; simpl; auto. rewrite (Hp tg) by (simpl; auto). rewrite String.eqb_refl. f_equal. apply IH. intros; apply Hp; simpl; auto. }
        assert (gs = []) as -> by auto. rewrite E1, app_nil_r. exists (map snd part). split; auto. split; auto. intros Hc. exfalso. apply Hc. simpl. auto.
      + assert (filter (fun tg => String.eqb (fst tg) t) part = []) as ->.
        { clear - Hp N. induction part as [| tg part IH]; simpl; auto. rewrite (Hp tg) by (simpl; auto). destruct (String.eqb_spec u t); [contradiction |].
          apply IH. intros; apply Hp; simpl; auto. }
        exists gs. split; [auto |]. split.
        * intros [H | H]; [contradiction | auto].
        * intros H. apply E3. intros Hc. apply H. simpl. auto.
  Qed.

  (** ** The whole call *)

  Section Call.
    Variable f : factory.
    Hypothesis Hd : decl_ok (f_decl f) = true.
    Hypothesis Hw : fks_within (f_fks f) (map fst (plain_schema f)).

    (** What is known when the call returns. *)
    Theorem write_data_ok : forall auto pre active d db db', write_data f auto pre active d db = (true, db') ->
      names_ok f = true /\ no_generics f = true /\ pg_name active = active /\
      (forall t ts, In (t, ts) (plain_schema f) -> exists pt rows,
         dget String.eqb db t = Some pt /\ (forall x, In x (tfields ts) -> In (pg_name x) (map c_name (pt_cols pt))) /\
         dget String.eqb db' t = Some (with_rows pt ((if deleted pre t then [] else pt_rows pt) ++ rows)) /\
         Forall2 (fun r r' => exists g, given_cells f active (active_tables db active) t ts r = Ret g /\ new_row (pt_cols pt) g = Some r')
           (full_rows (d t)) rows) /\
      forall t, ~ In t (map fst (plain_schema f)) -> dget String.eqb db' t = dget String.eqb db t.
    Proof.
      intros auto pre active d db db' H. unfold write_data, Pg.write_data in H.
      destruct (String.eqb (pg_name active) active && names_ok f && no_generics f && _) eqn:E; [| discriminate].
      rewrite !andb_true_iff in E. destruct E as [[[E1 E2] E3] E4]. apply String.eqb_eq in E1. do 3 (split; [assumption |]).
      assert (forall t ts, In (t, ts) (plain_schema f) -> exists pt, dget String.eqb db t = Some pt /\
                forall x, In x (tfields ts) -> In (pg_name x) (map c_name (pt_cols pt))) as Hpt.
      { unfold check_tables in E4. destruct (forallb _ (plain_schema f)) eqn:F in E4; [| discriminate]. rewrite forallb_forall in F.
        destruct (negb (Nat.eqb _ 0) && true) eqn:M in E4; [discriminate |]. rewrite andb_true_r in M. apply negb_false_iff in M. apply Nat.eqb_eq in M.
        intros t ts Hin. destruct (dget String.eqb db t) as [pt |] eqn:G.
        - exists pt. split; auto. specialize (F _ Hin). cbn [fst snd] in F. rewrite G in F. rewrite forallb_forall in F. intros x Hx.
          apply mem_str_iff. auto.
        - exfalso. apply length_zero_iff_nil in M. assert (In t []) as Hx; [| exact Hx]. rewrite <- M. apply filter_In. split; [now apply (in_map fst) in Hin |].
          unfold dmem. now rewrite G. }
      destruct (handle_preexisting f pre db) as [b1 db1] eqn:P. destruct b1; [| discriminate].
      unfold handle_preexisting in P. destruct (forallb _ pre) in P; [| discriminate].
      apply delete_all_spec in P as (l1 & l2 & El & Hb & P). specialize (Hb eq_refl). subst l2. rewrite app_nil_r in El. subst l1.
      assert (forall t, mem_str t (rev (ordered_tables f)) = true <-> In t (map fst (plain_schema f))) as Hrev.
      { intros t. rewrite mem_str_iff, <- in_rev. now apply ordered_In. }
      fold pg_data in H. destruct (pg_data f active (active_tables db active) d) as [l |] eqn:L; [| discriminate]. fold insert_all in H.
      destruct (insert_all l db1) as [b2 db2] eqn:I. destruct b2; [| discriminate]. injection H as <-.
      apply insert_all_spec in I as (m1 & m2 & -> & Hb & _ & _ & I). specialize (Hb eq_refl). subst m2. rewrite app_nil_r in L.
      apply pg_data_spec in L as [L1 L2]; [| now apply ordered_NoDup]. split.
      - intros t ts Hin. destruct (Hpt _ _ Hin) as (pt & G & C). exists pt. specialize (I t). rewrite P, G in I.
        assert (mem_str t (rev (ordered_tables f)) = true) as Hm by (apply Hrev; now apply (in_map fst) in Hin). rewrite Hm in I. cbn [andb] in I.
        assert (In t (ordered_tables f)) as Ho by (apply mem_str_iff in Hm; now apply in_rev).
        destruct (L2 t) as (gs & A & B & _). specialize (B Ho). rewrite (ts_of_In _ t ts) in B by (auto; now apply plain_wf).
        assert (pt_cols (if deleted pre t then with_rows pt [] else pt) = pt_cols pt) as Ec by (now destruct (deleted pre t)).
        destruct I as (rows & F & D). rewrite Ec in F. exists rows. split; auto. split; auto. split.
        + rewrite D. f_equal. now destruct (deleted pre t).
        + rewrite A in F. apply mapO_Forall2 in B. clear - B F. revert rows F. induction B as [| r g l m B _ IH]; intros rows F; inversion F; subst; constructor; eauto.
      - intros t Hn. specialize (I t). rewrite P in I. destruct (dget String.eqb db t) as [pt |] eqn:G; auto.
        assert (mem_str t (rev (ordered_tables f)) = false) as Hm.
        { destruct (mem_str t (rev (ordered_tables f))) eqn:M; auto. apply Hrev in M. contradiction. }
        rewrite Hm in I. cbn [andb] in I. destruct I as (rows & F & D). destruct (L2 t) as (gs & A & _ & B).
        rewrite B in A by (rewrite ordered_In; auto). rewrite A in F. inversion F; subst. rewrite D, app_nil_r. now rewrite with_own_rows.
    Qed.

    (** What is left after a call that raised: rows may be lost, but nothing is
        added unless every statement is committed at once ([auto]). *)
    Theorem write_data_fails : forall auto pre active d db db', write_data f auto pre active d db = (false, db') ->
      forall t, match dget String.eqb db t with
                | None => dget String.eqb db' t = None
                | Some pt => exists rows, dget String.eqb db' t = Some (with_rows pt rows) /\
                    (auto = false -> rows = pt_rows pt \/ rows = [] /\ deleted pre t = true /\ In t (map fst (plain_schema f))) /\
                    (~ In t (map fst (plain_schema f)) -> rows = pt_rows pt) /\
                    (deleted pre t = false -> exists new, rows = pt_rows pt ++ new)
                end.
    Proof.
      intros auto pre active d db db' H. unfold write_data, Pg.write_data in H.
      assert (forall t, match dget String.eqb db t with
                | None => dget String.eqb db t = None
                | Some pt => exists rows, dget String.eqb db t = Some (with_rows pt rows) /\
                    (auto = false -> rows = pt_rows pt \/ rows = [] /\ deleted pre t = true /\ In t (map fst (plain_schema f))) /\
                    (~ In t (map fst (plain_schema f)) -> rows = pt_rows pt) /\
                    (deleted pre t = false -> exists new, rows = pt_rows pt ++ new)
                end) as Hsame.
      { intros t. destruct (dget String.eqb db t) as [pt |]; auto. exists (pt_rows pt). rewrite with_own_rows. split; auto. split; auto. split; auto.
        intros _. exists []. now rewrite app_nil_r. }
      destruct (String.eqb (pg_name active) active && names_ok f && no_generics f && _) eqn:E; [| injection H as <-; exact Hsame].
      destruct (handle_preexisting f pre db) as [b1 db1] eqn:P.
      unfold handle_preexisting in P. destruct (forallb _ pre) in P; [| injection P as <- <-; injection H as <-; exact Hsame].
      apply delete_all_spec in P as (l1 & l2 & El & _ & P).
      assert (forall t, mem_str t l1 = true -> In t (map fst (plain_schema f))) as Hl1.
      { intros t Ht. apply mem_str_iff in Ht. apply (ordered_In f Hd Hw). apply in_rev. rewrite El. apply in_app_iff. auto. }
      assert (forall t, match dget String.eqb db t with
                | None => dget String.eqb db1 t = None
                | Some pt => exists rows, dget String.eqb db1 t = Some (with_rows pt rows) /\
                    (rows = pt_rows pt \/ rows = [] /\ deleted pre t = true /\ In t (map fst (plain_schema f)))
                end) as H1.
      { intros t. rewrite P. destruct (dget String.eqb db t) as [pt |]; auto. destruct (mem_str t l1 && deleted pre t) eqn:M.
        - exists []. split; auto. right. apply andb_true_iff in M as [M1 M2]. auto.
        - exists (pt_rows pt). rewrite with_own_rows. auto. }
      assert (forall t, match dget String.eqb db t with
                | None => dget String.eqb db1 t = None
                | Some pt => exists rows, dget String.eqb db1 t = Some (with_rows pt rows) /\
                    (auto = false -> rows = pt_rows pt \/ rows = [] /\ deleted pre t = true /\ In t (map fst (plain_schema f))) /\
                    (~ In t (map fst (plain_schema f)) -> rows = pt_rows pt) /\
                    (deleted pre t = false -> exists new, rows = pt_rows pt ++ new)
                end) as H1'.
      { intros t. specialize (H1 t). destruct (dget String.eqb db t) as [pt |]; auto. destruct H1 as (rows & G & H1). exists rows. split; auto. split; auto.
        split; [intros Hn; destruct H1 as [H1 | (_ & _ & H1)]; auto; contradiction |].
        intros D. exists []. rewrite app_nil_r. destruct H1 as [H1 | (_ & H1 & _)]; auto. congruence. }
      destruct b1; [| injection H as <-; exact H1'].
      fold pg_data in H. destruct (pg_data f active (active_tables db active) d) as [l |] eqn:L; [| injection H as <-; exact H1']. fold insert_all in H.
      destruct (insert_all l db1) as [b2 db2] eqn:I. destruct b2; [discriminate |]. destruct auto; injection H as <-; [| exact H1'].
      apply insert_all_spec in I as (m1 & m2 & -> & _ & _ & _ & I). apply pg_data_spec in L as [L1 L2]; [| now apply ordered_NoDup].
      intros t. specialize (H1 t). specialize (I t). destruct (dget String.eqb db t) as [pt |].
      - destruct H1 as (rows & G & H1). rewrite G in I. destruct I as (new & F & D). cbn [pt_rows with_rows] in D. exists (rows ++ new).
        split; [exact D |]. split; [discriminate |]. split.
        + intros Hn. destruct H1 as [-> | (_ & _ & H1)]; [| contradiction].
          assert (filter (fun tg => String.eqb (fst tg) t) m1 = []) as Ef.
          { clear - L1 Hn Hd Hw. induction m1 as [| tg m1 IH]; simpl; auto. destruct (String.eqb_spec (fst tg) t) as [<- | N].
            - exfalso. apply Hn. apply (ordered_In f Hd Hw). apply L1. simpl. auto.
            - apply IH. intros; apply L1; simpl; auto. }
          rewrite Ef in F. inversion F. apply app_nil_r.
        + intros Dl. exists new. destruct H1 as [-> | (_ & H1 & _)]; auto. congruence.
      - rewrite H1 in I. exact I.
    Qed.

    (** ** Cells of stored rows *)

    Lemma stored_cell : forall pt g r c, NoDup (map c_name (pt_cols pt)) -> new_row (pt_cols pt) g = Some r -> In c (pt_cols pt) ->
      cell_of g c (pg_cell pt r (c_name c)).
    Proof.
      intros pt g r c Hn H Hc. apply new_row_spec in H. unfold pg_cell, dget_or.
      induction H as [| c0 v cols r H _ IH]; [contradiction |]. cbn [map] in Hn |- *. apply NoDup_cons_iff in Hn as [Hx Hn]. cbn [combine dget].
      destruct Hc as [-> | Hc].
      - rewrite String.eqb_refl. exact H.
      - destruct (String.eqb_spec (c_name c0) (c_name c)) as [E | N]; [| auto]. exfalso. apply Hx. rewrite E. now apply in_map.
    Qed.

    (** The cells of the fields: written, then stored by the column. *)
    Lemma stored_fields : forall active actives t ts pt r g r', names_ok f = true -> In (t, ts) (plain_schema f) ->
      NoDup (map c_name (pt_cols pt)) -> List.length r = List.length (tfields ts) ->
      (forall x, In x (tfields ts) -> In (pg_name x) (map c_name (pt_cols pt))) ->
      given_cells f active actives t ts r = Ret g -> new_row (pt_cols pt) g = Some r' ->
      Forall2 (fun fx v => exists c u, In c (pt_cols pt) /\ c_name c = pg_name (fst fx) /\ pg_write_cell f t (fst fx) (snd fx) = Ret u /\
                 coerce (c_type c) u = Some v /\ (c_notnull c = true -> v <> VNone))
        (combine (tfields ts) r) (pg_cells pt r' (map pg_name (tfields ts))).
    Proof.
      intros active actives t ts pt r g r' Hn Hin Hc L Hcols Hg Hr. apply given_spec in Hg as (cells & -> & Hg).
      pose proof (field_names_NoDup f t ts Hn Hin) as Hnd.
      set (act := if mem_str t actives then [(active, VBool true)] else []) in *. clearbody act.
      assert (forall fx nv, In (fx, nv) (combine (combine (tfields ts) r) cells) -> dget String.eqb (cells ++ act) (pg_name (fst fx)) = Some (snd nv)) as Hget.
      { assert (map fst cells = map pg_name (map fst (combine (tfields ts) r))) as En.
        { clear - Hg. induction Hg as [| fx nv l m [H _] _ IH]; simpl; auto. now rewrite IH, H. }
        rewrite map_fst_combine in En by auto.
        intros fx nv H. rewrite dget_app. assert (NoDup (map fst cells)) as Nc by (now rewrite En).
        assert (dget String.eqb cells (pg_name (fst fx)) = Some (snd nv)) as ->; auto. apply dget_str; auto.
        clear - Hg H. induction Hg as [| fx0 nv0 l m [E _] _ IH]; [contradiction |]. simpl in H. destruct H as [H | H].
        - injection H as -> ->. rewrite <- E. destruct nv. simpl. auto.
        - simpl. auto. }
      assert (List.length (pg_cells pt r' (map pg_name (tfields ts))) = List.length (combine (tfields ts) r)) as Lp.
      { unfold pg_cells. rewrite !map_length, combine_length. lia. }
      assert (forall fx nv, In (fx, nv) (combine (combine (tfields ts) r) cells) ->
                fst nv = pg_name (fst fx) /\ pg_write_cell f t (fst fx) (snd fx) = Ret (snd nv)) as Hall.
      { clear - Hg. induction Hg as [| fx nv l m H _ IH]; simpl; [tauto |]. intros fx0 nv0 [E | E]; [injection E as <- <-; auto | auto]. }
      assert (List.length cells = List.length (combine (tfields ts) r)) as Lc by (symmetry; eapply Forall2_length'; eauto).
      clear Hg Lp. unfold pg_cells. rewrite map_map.
      revert r cells L Lc Hget Hall Hr Hcols. generalize (tfields ts) as fields. intros fields r cells L Lc Hget Hall Hr Hcols.
      set (gv := cells ++ act) in *. clearbody gv.
      revert r cells L Lc Hget Hall Hcols. induction fields as [| x fields IH]; intros [| v r] cells L Lc Hget Hall Hcols; try discriminate; simpl; constructor.
      - destruct cells as [| nv cells]; [discriminate |]. cbn [fst snd].
        destruct (proj1 (in_map_iff _ _ _) (Hcols x (or_introl eq_refl))) as (c & Ec & Hc').
        pose proof (stored_cell pt gv r' c Hc Hr Hc') as [S1 S2]. rewrite Ec in S1, S2.
        pose proof (Hget (x, v) nv (or_introl eq_refl)) as Hx. cbn [fst] in Hx. rewrite Hx in S1. destruct (Hall (x, v) nv) as [_ H2]; [simpl; auto |].
        exists c, (snd nv). auto.
      - destruct cells as [| nv cells]; [discriminate |]. apply (IH r cells); simpl in *; auto.
    Qed.

    (** The active column. *)
    Lemma stored_active : forall active actives t ts pt r g r' c, names_ok f = true -> In (t, ts) (plain_schema f) ->
      NoDup (map c_name (pt_cols pt)) -> In t actives -> In c (pt_cols pt) -> c_name c = active ->
      NoDup (map fst g) -> given_cells f active actives t ts r = Ret g -> new_row (pt_cols pt) g = Some r' ->
      coerce (c_type c) (VBool true) = Some (pg_cell pt r' active).
    Proof.
      intros active actives t ts pt r g r' c Hn Hin Hc Hact Hcin Ec Hg0 Hg Hr. apply given_spec in Hg as (cells & -> & Hg).
      apply mem_str_iff in Hact. rewrite Hact in *. destruct (stored_cell pt _ r' c Hc Hr Hcin) as [S1 _]. rewrite Ec in S1.
      assert (dget String.eqb (cells ++ [(active, VBool true)]) active = Some (VBool true)) as G.
      { apply dget_str; auto. apply in_app_iff. simpl. auto. }
      now rewrite G in S1.
    Qed.

    (** A row that is written names no column twice. *)
    Lemma write_data_distinct : forall auto pre active d db db', write_data f auto pre active d db = (true, db') ->
      forall t ts r g, In (t, ts) (plain_schema f) -> In r (full_rows (d t)) ->
      given_cells f active (active_tables db active) t ts r = Ret g -> NoDup (map fst g).
    Proof.
      intros auto pre active d db db' H t ts r g Hin Hr Hg. unfold write_data, Pg.write_data in H.
      destruct (String.eqb (pg_name active) active && names_ok f && no_generics f && _) eqn:E; [| discriminate].
      destruct (handle_preexisting f pre db) as [b1 db1] eqn:P. destruct b1; [| discriminate].
      fold pg_data in H. destruct (pg_data f active (active_tables db active) d) as [l |] eqn:L; [| discriminate]. fold insert_all in H.
      assert (In (t, g) l) as Hl.
      { apply pg_data_spec in L as [_ L]; [| now apply ordered_NoDup]. destruct (L t) as (gs & A & B & _).
        assert (In t (ordered_tables f)) as Ho by (apply ordered_ts; eauto).
        specialize (B Ho). rewrite (ts_of_In _ t ts) in B by (auto; now apply plain_wf). apply mapO_Forall2 in B.
        destruct (Forall2_In_l _ _ _ _ B Hr) as (g' & Hg' & E'). assert (g' = g) as -> by congruence. rewrite <- A in Hg'.
        apply in_map_iff in Hg' as ([t' g'] & E2 & Hf). apply filter_In in Hf as [Hf E3]. cbn [fst snd] in *. apply String.eqb_eq in E3. now subst. }
      destruct (insert_all l db1) as [b2 db2] eqn:I. destruct b2; [| discriminate]. clear H L E P.
      revert db1 I. induction l as [| [u g'] l IH]; intros db1 I; [contradiction |]. unfold insert_all in I. cbn [Pg.insert_all] in I.
      fold insert_row in I. fold insert_all in I. cbn [fst snd] in I. destruct (insert_row db1 u g') as [db1' |] eqn:R; [| discriminate].
      destruct Hl as [E | Hl]; [injection E as -> ->; now apply insert_row_spec in R as (pt & r' & _ & R & _) | eauto].
    Qed.
  End Call.
End Write.
