(** * Facts: PanDat objects written to Postgres. *)
From Coq Require Import ZArith Bool List String Ascii Arith Lia Permutation.
From Verif Require Import PyVal PyValFacts PyDict PyDictFacts PyStr ListFacts TypeDict Data FindTypes FindTypesFacts FK Graph GraphFacts
  Obj ObjFacts ObjMore Factory FactoryFacts InfIO InfIOFacts PanIOFacts Params Names NamesFacts Utils UtilsMore Ampl Json ObjRows JsonFacts TripFacts
  Sql SqlFacts Frames FramesFacts FramesPan PanIO PanRead PanJson Pg PgFacts PgWrite PgTrip PgStore PgPan.
Import ListNotations.
Local Open Scope string_scope.
Local Open Scope list_scope.

Section Upload.
  Variable pg_text : value -> string.
  Variable pg_num : string -> option num.
  Variable pg_stamp : string -> option Z.
  Variable pg_bool : string -> option bool.
  Variable pg_int : Z -> option Z.
  Variable pg_float : Z -> Z.
  Variable pg_other : string -> value -> option value.
  Notation insert_all := (insert_all pg_text pg_num pg_stamp pg_bool pg_int pg_float pg_other).
  Notation upload := (upload pg_text pg_num pg_stamp pg_bool pg_int pg_float pg_other).

  Definition statements (l : list (string * list (list (string * value)))) : list (string * list (string * value)) :=
    List.concat (map (fun tg => map (pair (fst tg)) (snd tg)) l).

  Lemma upload_spec : forall go l i db b db', upload go i l db = (b, db') ->
    exists l1 l2, l = l1 ++ l2 /\ insert_all (statements l1) db = (true, db') /\
      (forall j, S j < List.length l1 -> go (i + j) = true) /\
      (b = true -> l2 <> [] -> exists k, List.length l1 = S k /\ go (i + k) = false) /\
      (b = false -> l2 <> [] /\ forall j, j < List.length l1 -> go (i + j) = true).
  Proof.
    intros go. induction l as [| [t gs] l IH]; intros i db b db' H; cbn [PgPan.upload fst snd] in H.
    - injection H as <- <-. exists [], []. split; auto. split; auto. split; [simpl; intros; lia |]. split; [intros _ X; now destruct X | discriminate].
    - destruct (insert_all (map (pair t) gs) db) as [b1 db1] eqn:E. destruct b1.
      + destruct (go i) eqn:Eg.
        * apply IH in H as (l1 & l2 & -> & A & B & C & D). exists ((t, gs) :: l1), l2. split; auto. split.
          -- unfold statements. cbn [map List.concat fst snd]. rewrite (insert_all_app _ _ _ _ _ _ _ _ _ _ _ E). exact A.
          -- split; [| split].
             ++ intros [| j] Hj; [now rewrite Nat.add_0_r |]. rewrite <- plus_n_Sm. apply (B j). simpl in Hj. lia.
             ++ intros Hb Hl. destruct (C Hb Hl) as (k & K1 & K2). exists (S k). simpl. rewrite <- plus_n_Sm. auto.
             ++ intros Hb. destruct (D Hb) as [D1 D2]. split; auto. intros [| j] Hj; [now rewrite Nat.add_0_r |]. rewrite <- plus_n_Sm. apply (D2 j). simpl in Hj. lia.
        * injection H as <- <-. exists [(t, gs)], l. split; auto. split; [unfold statements; cbn [map List.concat fst snd]; now rewrite app_nil_r |].
          split; [simpl; intros; lia |]. split; [| discriminate]. intros _ _. exists 0. now rewrite Nat.add_0_r.
      + injection H as <- <-. exists [], ((t, gs) :: l). split; auto. split; auto. split; [simpl; intros; lia |]. split; [discriminate |].
        intros _. split; [discriminate |]. simpl. intros; lia.
  Qed.

  Lemma statements_of : forall l t, NoDup (map fst l) ->
    map snd (filter (fun tg => String.eqb (fst tg) t) (statements l)) = match dget String.eqb l t with Some gs => gs | None => [] end.
  Proof.
    induction l as [| [u gs] l IH]; intros t Hn; auto. cbn [map fst] in Hn. apply NoDup_cons_iff in Hn as [Hu Hn].
    unfold statements in *. cbn [map List.concat fst snd dget]. rewrite filter_app, map_app, IH by auto.
    destruct (String.eqb u t) eqn:E.
    - apply String.eqb_eq in E. subst u.
      assert (dget String.eqb l t = None) as ->.
      { destruct (dget String.eqb l t) as [v |] eqn:G; auto. exfalso. apply dget_str in G; auto. apply Hu. now apply (in_map fst) in G. }
      rewrite app_nil_r. clear. induction gs as [| g gs IH]; simpl; auto. rewrite String.eqb_refl. simpl. now rewrite IH.
    - assert (map snd (filter (fun tg : string * list (string * value) => String.eqb (fst tg) t) (map (pair u) gs)) = []) as ->; auto.
      clear - E. induction gs as [| g gs IH]; simpl; auto. now rewrite E.
  Qed.
End Upload.

Section Write.
  Variable date_of : value -> option Z.
  Variable float_of : value -> option value.
  Variable settle : list value -> list value.
  Variable str_of : value -> string.
  Variable pg_text : value -> string.
  Variable pg_num : string -> option num.
  Variable pg_stamp : string -> option Z.
  Variable pg_bool : string -> option bool.
  Variable pg_int : Z -> option Z.
  Variable pg_float : Z -> Z.
  Variable pg_other : string -> value -> option value.
  Notation coerce := (coerce pg_text pg_num pg_stamp pg_bool pg_int pg_float pg_other).
  Notation default_value := (default_value pg_text pg_num pg_stamp pg_bool pg_int pg_float pg_other).
  Notation new_row := (new_row pg_text pg_num pg_stamp pg_bool pg_int pg_float pg_other).
  Notation pan_write_data := (pan_write_data date_of pg_text pg_num pg_stamp pg_bool pg_int pg_float pg_other).
  Notation frame_data := (frame_data date_of).
  Notation pan_write := (pan_write date_of).

  (** What goes to the database for the cell [v] of field [x]: infinities of the flag, NULL for the infinity that a
      null stands for, and for nulls. *)
  Definition goes_in (f : factory) (t x : string) (v : value) : value :=
    sql_null (if String.eqb t "parameters" then v
              else match f_flag f with
                   | VNone => match bias_now date_of f t x with Ret b => if is_bias_inf b v then VNone else v | Raise => v end
                   | flag => flagged flag v
                   end).

  Lemma written_rows f t fs l w : good_flag (f_flag f) = true -> NoDup fs -> PanIOFacts.rect fs l ->
    pan_write f t fs l = Ret w -> map (map sql_null) w = map (mapf fs (goes_in f t)) l.
  Proof.
    intros G N R E. destruct (string_dec t "parameters") as [-> | Hne].
    - rewrite pan_params_write in E by auto. injection E as <-. destruct (has_params f).
      + rewrite map_map. apply map_ext. intros r. unfold mapf. rewrite map_map. apply map_ext. intros [x v]. cbn [fst snd]. unfold goes_in. cbn [String.eqb Ascii.eqb Bool.eqb].
        destruct (String.eqb x (last fs "")); auto. destruct (is_null v) eqn:En; simpl; auto. unfold sql_null. now rewrite En.
      + apply map_ext_in. intros r Hr. unfold mapf, goes_in. rewrite String.eqb_refl. rewrite <- (map_map snd sql_null). f_equal. symmetry. apply map_snd_combine. symmetry. now apply R.
    - destruct (pan_write_eq date_of f t fs l w Hne G N R E) as (bs & Eb & ->). rewrite map_map. apply map_ext. intros r. unfold mapf. rewrite map_map. apply map_ext_in.
      intros [x v] Hx. cbn [fst snd]. apply par_neq in Hne. unfold goes_in, put_cell. rewrite Hne. f_equal.
      assert (In x fs) as Hin by (eapply in_combine_l; eauto). destruct (biases_ret date_of f t fs bs x Eb Hin) as [[F B] | [F B]].
      + rewrite F, B. now destruct (is_bias_inf (bs x) v).
      + rewrite B. cbn [is_bias_inf]. destruct (f_flag f); auto. congruence.
  Qed.

  Lemma pan_write_iff f t fs l : t <> "parameters" -> good_flag (f_flag f) = true ->
    (pan_write f t fs l = Raise <-> f_flag f = VNone /\ exists x, In x fs /\ bias_now date_of f t x = Raise).
  Proof.
    intros Hne G. apply par_neq in Hne. unfold InfIO.pan_write. rewrite Hne. pose proof (biases_raise date_of f t fs) as B.
    destruct (f_flag f) eqn:F; try (split; [discriminate | intros [X _]; discriminate]). destruct (biases date_of f t fs) as [bs |].
    - split; [discriminate |]. intros X. apply B in X. discriminate.
    - split; auto. intros _. now apply B.
  Qed.

  (** The stored row [r'] of the row [r] of table [t]: every column. *)
  Definition stores (f : factory) (active : string) (t : string) (ts : tschema) (pt : pgtable) (r r' : list value) : Prop :=
    List.length r' = List.length (pt_cols pt) /\
    forall c, In c (pt_cols pt) ->
      (c_notnull c = true -> pg_cell pt r' (c_name c) <> VNone) /\
      (c_name c = active -> active <> "" -> coerce (c_type c) (VBool true) = Some (pg_cell pt r' (c_name c))) /\
      (c_name c <> active \/ active = "" -> forall x v, In (x, v) (combine (tfields ts) r) -> c_name c = pg_name x ->
         coerce (c_type c) (goes_in f t x v) = Some (pg_cell pt r' (c_name c))) /\
      (c_name c <> active \/ active = "" -> ~ In (c_name c) (map pg_name (tfields ts)) -> default_value c = Some (pg_cell pt r' (c_name c))).

  Variable f : factory.
  Hypothesis Hd : decl_ok (f_decl f) = true.
  Hypothesis Hw : fks_within (f_fks f) (map fst (plain_schema f)).

  Lemma frame_stored : forall active actives t ts pt r r0 r', names_ok f = true -> In (t, ts) (plain_schema f) ->
    NoDup (map c_name (pt_cols pt)) -> List.length r = List.length (tfields ts) -> map sql_null r0 = mapf (tfields ts) (goes_in f t) r ->
    mem_str t actives = negb (String.eqb active "") && mem_str active (map c_name (pt_cols pt)) ->
    new_row (pt_cols pt) (frame_cells active actives t ts r0) = Some r' -> stores f active t ts pt r r'.
  Proof.
    intros active actives t ts pt r r0 r' Hn Hin Hc L E0 Ha Hr. pose proof (field_names_NoDup f t ts Hn Hin) as Nf.
    assert (Forall2 (PgWrite.cell_of pg_text pg_num pg_stamp pg_bool pg_int pg_float pg_other (frame_cells active actives t ts r0)) (pt_cols pt) r') as F by (now apply new_row_spec).
    split; [symmetry; eapply Forall2_length'; eauto |].
    intros c Hcin. destruct (stored_cell pg_text pg_num pg_stamp pg_bool pg_int pg_float pg_other pt _ r' c Hc Hr Hcin) as [S1 S2].
    set (cells := combine (map pg_name (tfields ts)) (map sql_null r0)) in *.
    assert (List.length (mapf (tfields ts) (goes_in f t) r) = List.length (map pg_name (tfields ts))) as Lm by (rewrite map_length; now apply mapf_length).
    assert (map fst cells = map pg_name (tfields ts)) as Ec by (unfold cells; rewrite E0; apply map_fst_combine; lia).
    assert (c_name c = active -> active <> "" -> dget String.eqb (frame_cells active actives t ts r0) (c_name c) = Some (VBool true)) as H1.
    { intros En Hne. unfold frame_cells. rewrite Ha. assert (String.eqb active "" = false) as -> by (now apply String.eqb_neq). cbn [negb andb].
      assert (mem_str active (map c_name (pt_cols pt)) = true) as -> by (apply mem_str_iff; rewrite <- En; now apply in_map).
      rewrite dget_dset_str, En, String.eqb_refl. reflexivity. }
    assert (c_name c <> active \/ active = "" -> dget String.eqb (frame_cells active actives t ts r0) (c_name c) = dget String.eqb cells (c_name c)) as H2.
    { intros Hor. unfold frame_cells. fold cells. destruct (mem_str t actives) eqn:M; auto. rewrite dget_dset_str. destruct (String.eqb_spec active (c_name c)) as [X | X]; auto.
      exfalso. destruct Hor as [Y | Y]; [congruence |]. rewrite Y in Ha. discriminate. }
    split; [auto |]. split; [| split].
    - intros En Hne. rewrite (H1 En Hne) in S1. exact S1.
    - intros Hor x v Hxv Ex. rewrite (H2 Hor) in S1. assert (dget String.eqb cells (c_name c) = Some (goes_in f t x v)) as G; [| now rewrite G in S1].
      apply dget_str; [now rewrite Ec |]. unfold cells. rewrite E0, Ex. clear - Hxv. unfold mapf. revert r Hxv. induction (tfields ts) as [| y fs IH]; intros [| u r] H; simpl in *; try contradiction.
      destruct H as [E | H]; [injection E as -> ->; auto | right; now apply IH].
    - intros Hor Hno. rewrite (H2 Hor) in S1. assert (dget String.eqb cells (c_name c) = None) as G; [| now rewrite G in S1].
      destruct (dget String.eqb cells (c_name c)) as [u |] eqn:G; auto. exfalso. apply dget_str in G; [| now rewrite Ec]. apply Hno. rewrite <- Ec. now apply (in_map fst) in G.
  Qed.

  Definition rows_fit (d : string -> list (list value)) : Prop :=
    forall t ts r, In (t, ts) (plain_schema f) -> In r (d t) -> List.length r = List.length (tfields ts).

  Lemma frame_data_spec : forall active actives d l, frame_data f active actives d = Ret l ->
    map fst l = ordered_tables f /\
    forall t ts, In (t, ts) (plain_schema f) -> exists w, pan_write f t (tfields ts) (d t) = Ret w /\
      dget String.eqb l t = Some (map (frame_cells active actives t ts) w).
  Proof.
    intros active actives d l H. unfold PgPan.frame_data in H. apply mapO_Forall2 in H.
    assert (map fst l = ordered_tables f) as Em.
    { clear - H. induction H as [| t y m l H _ IH]; auto. apply bindO_ret in H as (w & _ & E). injection E as <-. simpl. now rewrite IH. }
    split; auto. intros t ts Hin. assert (In t (ordered_tables f)) as Ht by (apply (ordered_In f Hd Hw); now apply (in_map fst) in Hin).
    destruct (Forall2_In_l _ _ _ _ H Ht) as (y & Hy & E). apply bindO_ret in E as (w & Ew & Ey). injection Ey as <-.
    rewrite (ts_of_In _ t ts) in Ew, Hy by (auto; now apply plain_wf). exists w. split; auto. apply dget_str; auto. rewrite Em. now apply ordered_NoDup.
  Qed.

  Lemma frame_data_ret : forall active actives d, frame_data f active actives d = Raise <->
    exists t ts, In (t, ts) (plain_schema f) /\ pan_write f t (tfields ts) (d t) = Raise.
  Proof.
    intros active actives d. unfold PgPan.frame_data. split.
    - intros H. assert (exists t, In t (ordered_tables f) /\ pan_write f t (tfields (ts_of (plain_schema f) t)) (d t) = Raise) as (t & Ht & E).
      { revert H. generalize (ordered_tables f) as l. induction l as [| t l IH]; [discriminate |]. cbn [mapO].
        destruct (pan_write f t (tfields (ts_of (plain_schema f) t)) (d t)) eqn:E; cbn [bindO].
        - destruct (mapO _ l); [discriminate |]. intros _. destruct IH as (u & A & B); auto. exists u. simpl. auto.
        - intros _. exists t. simpl. auto. }
      apply (ordered_ts f Hd Hw) in Ht as (ts & Hin). rewrite (ts_of_In _ t ts) in E by (auto; now apply plain_wf). eauto.
    - intros (t & ts & Hin & E). destruct (mapO _ (ordered_tables f)) as [l |] eqn:M; auto. exfalso.
      destruct (frame_data_spec active actives d l M) as [_ S]. destruct (S _ _ Hin) as (w & Ew & _). congruence.
  Qed.

  Theorem pan_write_ok : forall auto go pre active d db db', good_flag (f_flag f) = true -> db_wf db -> rows_fit d ->
    pan_write_data f auto go pre active d db = (true, db') ->
    names_ok f = true /\ pg_name active = active /\
    exists l1 l2, ordered_tables f = l1 ++ l2 /\
      (forall j, S j < List.length l1 -> go j = true) /\
      (l2 <> [] -> exists k, List.length l1 = S k /\ go k = false) /\
      (forall t ts, In (t, ts) (plain_schema f) -> exists pt rows,
         dget String.eqb db t = Some pt /\ (forall x, In x (tfields ts) -> In (pg_name x) (map c_name (pt_cols pt))) /\
         dget String.eqb db' t = Some (with_rows pt ((if deleted pre t then [] else pt_rows pt) ++ rows)) /\
         (In t l1 -> Forall2 (stores f active t ts pt) (d t) rows) /\ (In t l2 -> rows = [])) /\
      forall t, ~ In t (map fst (plain_schema f)) -> dget String.eqb db' t = dget String.eqb db t.
  Proof.
    intros auto go pre active d db db' Gf [Hdbn Hdb] Hfit H. unfold PgPan.pan_write_data in H.
    destruct (String.eqb (pg_name active) active && names_ok f && _) eqn:E; [| discriminate].
    rewrite !andb_true_iff in E. destruct E as [[E1 E2] E4]. apply String.eqb_eq in E1. split; auto. split; auto.
    assert (forall t ts, In (t, ts) (plain_schema f) -> exists pt, dget String.eqb db t = Some pt /\
              forall x, In x (tfields ts) -> In (pg_name x) (map c_name (pt_cols pt))) as Hpt.
    { unfold check_tables in E4. destruct (forallb _ (plain_schema f)) eqn:F in E4; [| discriminate]. rewrite forallb_forall in F.
      destruct (negb (Nat.eqb _ 0) && true) eqn:M in E4; [discriminate |]. rewrite andb_true_r in M. apply negb_false_iff in M. apply Nat.eqb_eq in M.
      intros t ts Hin. destruct (dget String.eqb db t) as [pt |] eqn:G.
      - exists pt. split; auto. specialize (F _ Hin). cbn [fst snd] in F. rewrite G in F. rewrite forallb_forall in F. intros x Hx.
        apply mem_str_iff. auto.
      - exfalso. apply length_zero_iff_nil in M. assert (In t []) as Hx; [| exact Hx]. rewrite <- M. apply filter_In. split; [now apply (in_map fst) in Hin |].
        unfold dmem. now rewrite G. }
    destruct (handle_preexisting f pre db) as [b1 db1] eqn:P. destruct b1; [| discriminate].
    unfold handle_preexisting in P. destruct (forallb _ pre) in P; [| discriminate].
    apply delete_all_spec in P as (p1 & p2 & El & Hb & P). specialize (Hb eq_refl). subst p2. rewrite app_nil_r in El. subst p1.
    assert (forall t, mem_str t (rev (ordered_tables f)) = true <-> In t (map fst (plain_schema f))) as Hrev.
    { intros t. rewrite mem_str_iff, <- in_rev. now apply ordered_In. }
    destruct (frame_data f active (active_tables db active) d) as [l |] eqn:L; [| discriminate].
    destruct (upload _ _ _ _ _ _ _ go 0 l db1) as [b2 db2] eqn:U. destruct b2; [| discriminate]. injection H as <-.
    apply upload_spec in U as (l1 & l2 & -> & I & U1 & U2 & _). specialize (U2 eq_refl).
    apply frame_data_spec in L as [L1 L2]. rewrite map_app in L1.
    apply insert_all_spec in I as (m1 & m2 & Em & Hb & _ & _ & I). specialize (Hb eq_refl). subst m2. rewrite app_nil_r in Em. subst m1.
    pose proof (ordered_NoDup f Hd Hw) as No. rewrite <- L1 in No.
    assert (NoDup (map fst l1)) as N1 by (now apply NoDup_app_l in No).
    exists (map fst l1), (map fst l2). split; [now symmetry |]. rewrite map_length. split; [exact U1 |]. split.
    { intros Hne. apply U2. intros ->. now apply Hne. }
    assert (forall t, match dget String.eqb (l1 ++ l2) t with
                      | Some gs => (In t (map fst l1) -> dget String.eqb l1 t = Some gs) /\ (~ In t (map fst l1) -> dget String.eqb l1 t = None)
                      | None => dget String.eqb l1 t = None end) as Hl1.
    { intros t. rewrite dget_app. destruct (dget String.eqb l1 t) as [gs |] eqn:G.
      - split; auto. intros X. exfalso. apply X. apply dget_str in G; auto. now apply (in_map fst) in G.
      - destruct (dget String.eqb l2 t); auto. split; auto. intros X. exfalso. apply in_map_iff in X as ([u gs] & Eu & X). cbn [fst] in Eu. subst u. apply dget_str in X; auto. congruence. }
    split.
    - intros t ts Hin. destruct (Hpt _ _ Hin) as (pt & G & C). exists pt. specialize (I t). rewrite P, G in I.
      assert (mem_str t (rev (ordered_tables f)) = true) as Hm by (apply Hrev; now apply (in_map fst) in Hin). rewrite Hm in I. cbn [andb] in I.
      assert (pt_cols (if deleted pre t then with_rows pt [] else pt) = pt_cols pt) as Ec by (now destruct (deleted pre t)).
      destruct I as (rows & F & D). rewrite Ec in F. rewrite statements_of in F by auto. exists rows. split; auto. split; auto. split.
      { rewrite D. f_equal. now destruct (deleted pre t). }
      destruct (L2 _ _ Hin) as (w & Ew & Gw). specialize (Hl1 t). rewrite Gw in Hl1. destruct Hl1 as [A B]. split.
      + intros Ht. rewrite (A Ht) in F. assert (PanIOFacts.rect (tfields ts) (d t)) as R by (intros r Hr; now apply (Hfit t ts)).
        pose proof (written_rows f t (tfields ts) (d t) w Gf (proj2 (plain_wf f Hd) _ _ Hin) R Ew) as Wr.
        assert (NoDup (map c_name (pt_cols pt))) as Hnc. { apply (Hdb t). now apply dget_str in G. }
        assert (mem_str t (active_tables db active) = negb (String.eqb active "") && mem_str active (map c_name (pt_cols pt))) as Ha by (rewrite active_mem by auto; now rewrite G).
        clear - F Wr R Hnc Ha Hin E2 Hd Hw. revert w rows F Wr. induction (d t) as [| r l IH]; intros [| r0 w] rows F Wr; try discriminate.
        * inversion F; constructor.
        * cbn [map] in F, Wr. inversion F as [| ? r' ? rows' F1 F2]; subst. injection Wr as W1 W2. constructor; [| eapply IH; eauto; intros x Hx; apply R; simpl; auto].
          eapply frame_stored; eauto. apply R. simpl. auto.
      + intros Ht. rewrite B in F; [now inversion F |]. intros X. eapply NoDup_app_disj; eauto.
    - intros t Hn. specialize (I t). rewrite P in I. destruct (dget String.eqb db t) as [pt |] eqn:G; auto.
      assert (mem_str t (rev (ordered_tables f)) = false) as Hm.
      { destruct (mem_str t (rev (ordered_tables f))) eqn:M; auto. apply Hrev in M. contradiction. }
      rewrite Hm in I. cbn [andb] in I. destruct I as (rows & F & D). rewrite statements_of in F by auto.
      assert (dget String.eqb l1 t = None) as X.
      { destruct (dget String.eqb l1 t) as [gs |] eqn:G1; auto. exfalso. apply Hn. apply (ordered_In f Hd Hw). rewrite <- L1. apply in_app_iff. left.
        apply dget_str in G1; auto. now apply (in_map fst) in G1. }
      rewrite X in F. inversion F; subst. rewrite D, app_nil_r. now rewrite with_own_rows.
  Qed.

  (** What is left after a call that raised. *)
  Theorem pan_write_fails : forall auto go pre active d db db', pan_write_data f auto go pre active d db = (false, db') ->
    forall t, match dget String.eqb db t with
              | None => dget String.eqb db' t = None
              | Some pt => exists rows, dget String.eqb db' t = Some (with_rows pt rows) /\
                  (auto = false -> rows = pt_rows pt \/ rows = [] /\ deleted pre t = true /\ In t (map fst (plain_schema f))) /\
                  (~ In t (map fst (plain_schema f)) -> rows = pt_rows pt) /\
                  (deleted pre t = false -> exists new, rows = pt_rows pt ++ new)
              end.
  Proof.
    intros auto go pre active d db db' H. unfold PgPan.pan_write_data in H.
    assert (forall t, match dget String.eqb db t with
              | None => dget String.eqb db t = None
              | Some pt => exists rows, dget String.eqb db t = Some (with_rows pt rows) /\
                  (auto = false -> rows = pt_rows pt \/ rows = [] /\ deleted pre t = true /\ In t (map fst (plain_schema f))) /\
                  (~ In t (map fst (plain_schema f)) -> rows = pt_rows pt) /\
                  (deleted pre t = false -> exists new, rows = pt_rows pt ++ new)
              end) as Hsame.
    { intros t. destruct (dget String.eqb db t) as [pt |]; auto. exists (pt_rows pt). rewrite with_own_rows. split; auto. split; auto. split; auto.
      intros _. exists []. now rewrite app_nil_r. }
    destruct (String.eqb (pg_name active) active && names_ok f && _) eqn:E; [| injection H as <-; exact Hsame].
    destruct (handle_preexisting f pre db) as [b1 db1] eqn:P.
    unfold handle_preexisting in P. destruct (forallb _ pre) in P; [| injection P as <- <-; injection H as <-; exact Hsame].
    apply delete_all_spec in P as (p1 & p2 & El & _ & P).
    assert (forall t, mem_str t p1 = true -> In t (map fst (plain_schema f))) as Hp1.
    { intros t Ht. apply mem_str_iff in Ht. apply (ordered_In f Hd Hw). apply in_rev. rewrite El. apply in_app_iff. auto. }
    assert (forall t, match dget String.eqb db t with
              | None => dget String.eqb db1 t = None
              | Some pt => exists rows, dget String.eqb db1 t = Some (with_rows pt rows) /\
                  (rows = pt_rows pt \/ rows = [] /\ deleted pre t = true /\ In t (map fst (plain_schema f)))
              end) as H1.
    { intros t. rewrite P. destruct (dget String.eqb db t) as [pt |]; auto. destruct (mem_str t p1 && deleted pre t) eqn:M.
      - exists []. split; auto. right. apply andb_true_iff in M as [M1 M2]. auto.
      - exists (pt_rows pt). rewrite with_own_rows. auto. }
    assert (forall t, match dget String.eqb db t with
              | None => dget String.eqb db1 t = None
              | Some pt => exists rows, dget String.eqb db1 t = Some (with_rows pt rows) /\
                  (auto = false -> rows = pt_rows pt \/ rows = [] /\ deleted pre t = true /\ In t (map fst (plain_schema f))) /\
                  (~ In t (map fst (plain_schema f)) -> rows = pt_rows pt) /\
                  (deleted pre t = false -> exists new, rows = pt_rows pt ++ new)
              end) as H1'.
    { intros t. specialize (H1 t). destruct (dget String.eqb db t) as [pt |]; auto. destruct H1 as (rows & G & H1). exists rows. split; auto. split; auto.
      split; [intros Hn; destruct H1 as [H1 | (_ & _ & H1)]; auto; contradiction |].
      intros D. exists []. rewrite app_nil_r. destruct H1 as [H1 | (_ & H1 & _)]; auto. congruence. }
    destruct b1; [| injection H as <-; exact H1'].
    destruct (frame_data f active (active_tables db active) d) as [l |] eqn:L; [| injection H as <-; exact H1'].
    destruct (upload _ _ _ _ _ _ _ go 0 l db1) as [b2 db2] eqn:U. destruct b2; [discriminate |]. destruct auto; injection H as <-; [| exact H1'].
    apply upload_spec in U as (l1 & l2 & -> & I & _ & _ & _). apply frame_data_spec in L as [L1 L2]. rewrite map_app in L1.
    pose proof (ordered_NoDup f Hd Hw) as No. rewrite <- L1 in No. assert (NoDup (map fst l1)) as N1 by (now apply NoDup_app_l in No).
    apply insert_all_spec in I as (m1 & m2 & Em & Hb & _ & _ & I). specialize (Hb eq_refl). subst m2. rewrite app_nil_r in Em. subst m1.
    intros t. specialize (H1 t). specialize (I t). destruct (dget String.eqb db t) as [pt |].
    - destruct H1 as (rows & G & H1). rewrite G in I. destruct I as (new & F & D). cbn [pt_rows with_rows] in D. exists (rows ++ new).
      split; [exact D |]. split; [discriminate |]. split.
      + intros Hn. destruct H1 as [-> | (_ & _ & H1)]; [| contradiction]. rewrite statements_of in F by auto.
        destruct (dget String.eqb l1 t) as [gs |] eqn:G1; [| inversion F; apply app_nil_r]. exfalso. apply Hn. apply (ordered_In f Hd Hw). rewrite <- L1. apply in_app_iff. left.
        apply dget_str in G1; auto. now apply (in_map fst) in G1.
      + intros Dl. exists new. destruct H1 as [-> | (_ & H1 & _)]; auto. congruence.
    - rewrite H1 in I. exact I.
  Qed.
End Write.
