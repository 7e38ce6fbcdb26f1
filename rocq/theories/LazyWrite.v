(** * Writing objects with generator tables. *)
From Coq Require Import ZArith Bool List String Arith Lia.
From Verif Require Import PyVal PyDict PyDictFacts ListFacts TypeDict Data FindTypes FK Obj ObjFacts Factory FactoryFacts InfIO Params Names NamesFacts
  Utils Json ObjRows JsonFacts TripFacts Csv CsvFacts CsvRows CsvCells CsvMore ObjMore Xls Sql FileDb Lazy LazyFacts LazyRead.
Import ListNotations.
Local Open Scope string_scope.
Local Open Scope list_scope.

Lemma dset_twice {V} : forall (l : list (string * V)) k a b, dset String.eqb (dset String.eqb l k a) k b = dset String.eqb l k b.
Proof.
  induction l as [| [u x] l IH]; intros k a b; cbn [dset]; [now rewrite String.eqb_refl |].
  destruct (String.eqb u k) eqn:E; cbn [dset fst]; rewrite E; [reflexivity | now rewrite IH].
Qed.
Lemma set_dir_twice : forall w p a b, set_dir (set_dir w p a) p b = set_dir w p b.
Proof. intros w p a b. unfold set_dir. cbn [w_dirs w_dbs w_books w_lists]. now rewrite dset_twice. Qed.
Lemma dir_set : forall w p d, dget_or String.eqb (w_dirs (set_dir w p d)) p [] = d.
Proof. intros w p d. unfold dget_or, set_dir. cbn [w_dirs]. rewrite dget_dset_same; [reflexivity | apply String.eqb_refl]. Qed.
Lemma dir_other : forall w p q d, p <> q -> dget String.eqb (w_dirs (set_dir w p d)) q = dget String.eqb (w_dirs w) q.
Proof. intros w p q d H. unfold set_dir. cbn [w_dirs]. apply dget_dset_other; try (now apply String.eqb_neq); intros; [apply String.eqb_sym | rewrite String.eqb_eq in *; congruence]. Qed.

(** ** Tables pulled out *)

Lemma pull_same : forall f g w d, NoDup (map fst (plain_schema f)) -> (forall t ts, In (t, ts) (plain_schema f) -> seen (f_defaults f) t ts (g t) w = Ret (d t)) ->
  exists l, pull f g w = Ret l /\ forall t ts, In (t, ts) (plain_schema f) -> pulled l t = d t.
Proof.
  intros f g w d Hn H. exists (map (fun tts => (fst tts, d (fst tts))) (plain_schema f)). split.
  - unfold pull. revert H. generalize (plain_schema f) as sch. clear Hn. induction sch as [| [t ts] sch IH]; intros H; [reflexivity |]. cbn [mapO map fst snd].
    rewrite (H t ts) by now left. cbn [bindO]. rewrite IH by (intros; apply H; now right). reflexivity.
  - intros t ts Hin. unfold pulled.
    assert (dget String.eqb (map (fun tts => (fst tts, d (fst tts))) (plain_schema f)) t = Some (d t)) as ->; [| reflexivity].
    apply str_get; [now rewrite map_map |]. apply in_map_iff. exists (t, ts). auto.
Qed.

(** ** csv *)

Section CsvWrite.
  Variable date_of : value -> option Z.
  Variable float_of : value -> option value.
  Variable show_num : num -> string.
  Variable show_date : Z -> string.
  Variable f : factory.

  Lemma put_put : forall (dir d0 : directory) n a b, put dir n a = Ret d0 -> put d0 n b = put dir n b.
  Proof.
    intros dir d0 n a b H. unfold put in *. destruct (existsb (fun e => String.eqb (fst (fst e)) n) dir) eqn:E.
    - assert (existsb (fun e => String.eqb (fst (fst e)) n) d0 = true) as ->.
      { apply existsb_exists in E as (e & Hin & E). apply mapO_Forall2 in H. destruct (Forall2_In_l _ _ _ _ H Hin) as (e' & He & E').
        cbv beta in E'. rewrite E in E'. destruct (snd (fst e)); [| discriminate]. injection E' as <-. apply existsb_exists. eexists. split; [exact He | apply String.eqb_refl]. }
      clear E. revert d0 H. induction dir as [| e dir IH]; intros d0 H; cbn [mapO] in *; [injection H as <-; reflexivity |].
      destruct (String.eqb (fst (fst e)) n) eqn:Ee.
      + destruct (snd (fst e)); [| discriminate]. destruct (mapO _ dir) as [r |] eqn:Er; [| discriminate]. injection H as <-. cbn [mapO fst snd].
        rewrite String.eqb_refl. now rewrite (IH r eq_refl).
      + destruct (mapO _ dir) as [r |] eqn:Er; [| discriminate]. injection H as <-. cbn [mapO]. rewrite Ee. now rewrite (IH r eq_refl).
    - injection H as <-. rewrite existsb_app. cbn [existsb fst]. rewrite String.eqb_refl, orb_true_r.
      induction dir as [| e dir IH]; cbn [mapO app existsb] in *; [now rewrite String.eqb_refl |]. apply orb_false_iff in E as [-> E]. now rewrite (IH E).
  Qed.
  Lemma put_any : forall (dir : directory) n a b, put dir n a = Raise -> put dir n b = Raise.
  Proof.
    intros dir n a b H. unfold put in *. destruct (existsb _ dir); [| discriminate]. induction dir as [| e dir IH]; cbn [mapO] in *; [discriminate |].
    destruct (String.eqb (fst (fst e)) n); [destruct (snd (fst e)); [| reflexivity] |].
    - destruct (mapO _ dir) eqn:E in H; [discriminate |]. now rewrite IH.
    - destruct (mapO _ dir) eqn:E in H; [discriminate |]. now rewrite IH.
  Qed.

  Definition csv_line (t : string) (ts : tschema) (r : list value) : outcome (list string) :=
    mapO (fun xv => bindO (fst (write_cell date_of (mkIO f []) t (fst xv) (snd xv))) (fun u => Ret (csv_text show_num show_date u))) (combine (tfields ts) r).

  Lemma lines_spec : forall t ts rows, match mapO (csv_line t ts) rows with
    | Ret l => lines_until date_of show_num show_date f t ts rows = (l, true)
    | Raise => snd (lines_until date_of show_num show_date f t ts rows) = false
    end.
  Proof.
    intros t ts rows. induction rows as [| r rows IH]; [reflexivity |]. cbn [mapO lines_until]. unfold csv_line at 1. destruct (mapO _ (combine (tfields ts) r)) as [l |]; [| reflexivity].
    destruct (mapO (csv_line t ts) rows) as [ls |]; [now rewrite IH |]. destruct (lines_until _ _ _ _ _ _ _). exact IH.
  Qed.

  Definition puts (new : directory) (acc : outcome directory) : outcome directory :=
    fold_left (fun acc (e : string * bool * csv_file) => bindO acc (fun dir => put dir (fst (fst e)) (snd e))) new acc.
  Lemma puts_raise : forall new, puts new Raise = Raise.
  Proof. induction new as [| n new IH]; [reflexivity | exact IH]. Qed.

  (** Tables that do not change while the files are written: as [csv_save]. *)
  Lemma files_spec : forall headers pretty path g d w tables,
    (forall t ts dir, In (t, ts) tables -> seen (f_defaults f) t ts (g t) (set_dir w path dir) = Ret (d t)) -> forall dir,
    match bindO (mapO (fun tts => bindO (csv_lines date_of show_num show_date f headers (fst tts) (snd tts) (d (fst tts)))
                       (fun file => Ret (csv_name pretty (map fst (f_decl f)) (fst tts), true, file))) tables) (fun new => puts new (Ret dir)) with
    | Ret dir' => gen_csv_files date_of show_num show_date f headers pretty path g tables (set_dir w path dir) = (true, set_dir w path dir')
    | Raise => fst (gen_csv_files date_of show_num show_date f headers pretty path g tables (set_dir w path dir)) = false
    end.
  Proof.
    intros headers pretty path g d w tables. induction tables as [| [t ts] tables IH]; intros Hs dir; [reflexivity |].
    cbn [mapO gen_csv_files fst snd]. rewrite dir_set. set (name := csv_name pretty (map fst (f_decl f)) t).
    assert (forall dir, In (t, ts) ((t, ts) :: tables) /\ seen (f_defaults f) t ts (g t) (set_dir w path dir) = Ret (d t)) as H1 by (intros; split; [now left | apply Hs; now left]).
    assert (forall t ts dir, In (t, ts) tables -> seen (f_defaults f) t ts (g t) (set_dir w path dir) = Ret (d t)) as H2 by (intros; apply Hs; now right).
    specialize (IH H2). unfold csv_lines at 1. change (fun r : list value => mapO _ (combine (tfields ts) r)) with (csv_line t ts).
    destruct (put dir name []) as [dir0 |] eqn:E0.
    - rewrite set_dir_twice, (proj2 (H1 dir0)). pose proof (lines_spec t ts (full_rows (d t))) as L.
      destruct (mapO (csv_line t ts) (full_rows (d t))) as [ls |].
      + rewrite L. cbn [bindO fst snd].
        clear H1 H2 Hs L. clearbody name.
        destruct headers; cbn [app]; rewrite (put_put dir dir0 name [] _ E0).
        * destruct (put dir name (tfields ts :: ls)) as [dir1 |] eqn:E1.
          -- rewrite set_dir_twice. specialize (IH dir1).
             destruct (mapO _ tables) as [new |]; cbn [bindO] in *; [| exact IH]. unfold puts in *. cbn [fold_left bindO fst snd]. rewrite E1. exact IH.
          -- destruct (mapO _ tables) as [new |]; cbn [bindO]; [| reflexivity]. unfold puts. cbn [fold_left bindO fst snd]. rewrite E1.
             fold (puts new Raise). rewrite puts_raise. reflexivity.
        * destruct (put dir name ls) as [dir1 |] eqn:E1.
          -- rewrite set_dir_twice. specialize (IH dir1).
             destruct (mapO _ tables) as [new |]; cbn [bindO] in *; [| exact IH]. unfold puts in *. cbn [fold_left bindO fst snd]. rewrite E1. exact IH.
          -- destruct (mapO _ tables) as [new |]; cbn [bindO]; [| reflexivity]. unfold puts. cbn [fold_left bindO fst snd]. rewrite E1.
             fold (puts new Raise). rewrite puts_raise. reflexivity.
      + cbn [bindO]. rewrite L. destruct (put dir0 name _); reflexivity.
    - cbn [fst]. destruct (mapO (csv_line t ts) (full_rows (d t))) as [ls |]; cbn [bindO]; [| reflexivity].
      destruct (mapO _ tables) as [new |]; cbn [bindO]; [| reflexivity]. unfold puts. cbn [fold_left bindO fst snd].
      rewrite (put_any dir name [] _ E0). fold (puts new Raise). rewrite puts_raise. reflexivity.
  Qed.

  (** Saving an object whose tables do not depend on the directory written to. *)
  Theorem csv_elsewhere : forall headers pretty allow path g d w, NoDup (map fst (plain_schema f)) ->
    (forall t ts dir, In (t, ts) (plain_schema f) -> seen (f_defaults f) t ts (g t) (set_dir w path dir) = Ret (d t)) ->
    (forall t ts, In (t, ts) (plain_schema f) -> seen (f_defaults f) t ts (g t) w = Ret (d t)) ->
    match csv_save date_of show_num show_date f headers pretty allow (dget_or String.eqb (w_dirs w) path []) d with
    | Ret dir' => gen_csv_save date_of show_num show_date f headers pretty allow path g w = (true, set_dir w path dir')
    | Raise => fst (gen_csv_save date_of show_num show_date f headers pretty allow path g w) = false
    end.
  Proof.
    intros headers pretty allow path g d w Hn Hs Hw. destruct (pull_same f g w d Hn Hw) as (l & E & _). unfold csv_save, gen_csv_save. rewrite E.
    destruct (negb allow && _); [reflexivity |]. exact (files_spec headers pretty path g d w (plain_schema f) Hs _).
  Qed.

  (** ** The same directory *)

  Lemma put_found : forall (dir d0 : directory) n a, put dir n a = Ret d0 ->
    find (fun e : string * bool * csv_file => String.eqb (fst (fst e)) n && snd (fst e)) d0 = Some (n, true, a).
  Proof.
    intros dir d0 n a H. unfold put in H. destruct (existsb _ dir) eqn:E.
    - revert d0 H. induction dir as [| e dir IH]; intros d0 H; cbn [existsb mapO] in *; [discriminate |]. destruct (String.eqb (fst (fst e)) n) eqn:Ee.
      + destruct (snd (fst e)); [| discriminate]. destruct (mapO _ dir); [| discriminate]. injection H as <-. cbn [find fst snd]. now rewrite String.eqb_refl.
      + destruct (mapO _ dir) as [r |]; [| discriminate]. injection H as <-. cbn [find]. rewrite Ee. cbn [andb]. now apply IH.
    - injection H as <-. induction dir as [| e dir IH]; cbn [existsb find app fst snd] in *; [now rewrite String.eqb_refl |].
      apply orb_false_iff in E as [Ee E]. rewrite Ee. cbn [andb]. now apply IH.
  Qed.
  Lemma put_only : forall (dir d0 : directory) n a e, put dir n a = Ret d0 -> In e d0 -> fst (fst e) = n -> e = (n, true, a).
  Proof.
    intros dir d0 n a e H Hin He. unfold put in H. destruct (existsb _ dir) eqn:E.
    - apply mapO_Forall2 in H. destruct (Forall2_In_r _ _ _ _ H Hin) as (e' & Hin' & E'). cbv beta in E'.
      destruct (String.eqb (fst (fst e')) n) eqn:Ee; [destruct (snd (fst e')); [congruence | discriminate] |].
      injection E' as <-. rewrite He, String.eqb_refl in Ee. discriminate.
    - injection H as <-. apply in_app_iff in Hin as [Hin | [<- | []]]; [| reflexivity]. exfalso. apply not_true_iff_false in E. apply E.
      apply existsb_exists. exists e. split; auto. rewrite He. apply String.eqb_refl.
  Qed.

  (** The file of a name in a directory, and no second entry of that name. *)
  Definition the_file (dir : directory) (n : string) (file : csv_file) : Prop := In (n, true, file) dir /\ forall e, In e dir -> fst (fst e) = n -> e = (n, true, file).

  Lemma put_other : forall (dir d0 : directory) n m a file, put dir n a = Ret d0 -> m <> n -> the_file dir m file -> the_file d0 m file.
  Proof.
    intros dir d0 n m a file H Hne [A B]. split; [eapply put_keeps; eauto |]. intros e Hin He. apply B; auto. unfold put in H. destruct (existsb _ dir).
    - apply mapO_Forall2 in H. destruct (Forall2_In_r _ _ _ _ H Hin) as (e' & Hin' & E'). cbv beta in E'.
      destruct (String.eqb (fst (fst e')) n) eqn:Ee; [| now injection E' as <-]. destruct (snd (fst e')); [| discriminate]. injection E' as <-. cbn in He. congruence.
    - injection H as <-. apply in_app_iff in Hin as [Hin | [<- | []]]; [auto |]. cbn in He. congruence.
  Qed.

  (** The other tables leave a file alone. *)
  Lemma files_keep : forall headers pretty path g tables w m file, (forall t ts, In (t, ts) tables -> csv_name pretty (map fst (f_decl f)) t <> m) ->
    the_file (dget_or String.eqb (w_dirs w) path []) m file ->
    the_file (dget_or String.eqb (w_dirs (snd (gen_csv_files date_of show_num show_date f headers pretty path g tables w))) path []) m file.
  Proof.
    intros headers pretty path g tables. induction tables as [| [t ts] tables IH]; intros w m file Hne H; [exact H |]. cbn [gen_csv_files].
    assert (m <> csv_name pretty (map fst (f_decl f)) t) as Hm by (intros E; apply (Hne t ts); [now left | auto]).
    destruct (put _ _ []) as [dir0 |] eqn:E0; [| exact H]. pose proof (put_other _ _ _ _ _ _ E0 Hm H) as H0.
    destruct (put dir0 _ _) as [dir1 |] eqn:E1; [| cbn [snd]; now rewrite dir_set]. pose proof (put_other _ _ _ _ _ _ E1 Hm H0) as H1.
    match goal with |- context [if snd ?b then _ else _] => destruct (snd b) end; [| cbn [snd]; now rewrite dir_set]. apply IH; [intros; eapply Hne; right; eauto | now rewrite dir_set].
  Qed.

  (** The rows of a generator table that reads the file it is written to are gone. *)
  Theorem csv_lost : forall headers pretty path g t ts tables w, NoDup (map (fun tts : string * tschema => csv_name pretty (map fst (f_decl f)) (fst tts)) tables) ->
    In (t, ts) tables -> let name := csv_name pretty (map fst (f_decl f)) t in
    g t = Lazy (csv_source date_of float_of f headers path name t ts) ->
    fst (gen_csv_files date_of show_num show_date f headers pretty path g tables w) = true ->
    the_file (dget_or String.eqb (w_dirs (snd (gen_csv_files date_of show_num show_date f headers pretty path g tables w))) path []) name (if headers then [tfields ts] else []).
  Proof.
    intros headers pretty path g t ts tables. induction tables as [| [u us] tables IH]; intros w N Hin name Hg; [contradiction |]. cbn [gen_csv_files].
    cbn [map fst] in N. inversion N as [| ? ? Nn N']; subst. destruct (put _ _ []) as [dir0 |] eqn:E0; [| discriminate].
    destruct Hin as [E | Hin].
    - injection E as -> ->. clear IH. fold name in E0 |- *.
      assert (seen (f_defaults f) t ts (g t) (set_dir w path dir0) = Ret (OListed [])) as ->.
      { rewrite Hg. cbn [seen]. unfold yields, csv_source. rewrite dir_set, (put_found _ _ _ _ E0). cbn [snd]. unfold csv_rows. destruct headers; reflexivity. }
      cbn [full_rows lines_until fst snd]. rewrite app_nil_r. destruct (put dir0 name _) as [dir1 |] eqn:E1; [| discriminate]. intros Hok.
      apply files_keep.
      + intros t' ts' Hin' E. apply Nn. fold name. rewrite <- E. apply in_map_iff. exists (t', ts'). auto.
      + rewrite dir_set. split; [eapply put_adds; eauto | intros e; eapply put_only; eauto].
    - destruct (put dir0 _ _) as [dir1 |] eqn:E1; [| discriminate]. match goal with |- context [if snd ?b then _ else _] => destruct (snd b) end; [| discriminate]. intros Hok. now apply IH.
  Qed.
End CsvWrite.
