(** * Facts: PanDat parameters, trailing rows of sheets, several writes to one place. *)
From Coq Require Import ZArith Bool List String Ascii Arith Lia Permutation.
From Verif Require Import PyVal PyValFacts PyDict PyDictFacts ListFacts PyStr TypeDict TypeDictFacts Data FindTypes FindTypesFacts FK Obj ObjFacts ObjMore
  Factory FactoryFacts GraphFacts InfIO InfIOFacts PanIOFacts Params ParamsFacts Names NamesFacts Utils UtilsFacts UtilsMore Json ObjRows TripFacts Csv CsvMore CsvTrip Frames FramesFacts FramesPan PanIO PanRead PanJson.
Import ListNotations.
Local Open Scope string_scope.
Local Open Scope list_scope.

(** ** Parameters *)

Lemma fix_back : forall date_of float_of str_of json f k s v,
  denotes date_of float_of (param_type f k) s v -> v <> VNone ->
  (forall t, param_type f k = Some t -> valid_data (is_date date_of) t v = true) ->
  (forall t, param_type f k = Some t -> datetime t = true -> number_allowed t = true -> float_of (VStr s) = None) ->
  (json = true -> none_text (VStr s) = true -> exists t, param_type f k = Some t /\ (valid_data (is_date date_of) t VNone = false \/ exists z, v = VDate z)) ->
  fix_value date_of float_of str_of json f k (VStr s) = v.
Proof.
  intros date_of float_of str_of json f k s v D Hne Hv Hn Hj. unfold fix_value.
  destruct v as [| | b | n | s' | z]; cbn [denotes] in D; try contradiction.
  - destruct D as [Ht Hf]. assert (match param_type f k with Some t => if datetime t then match adjust date_of (VStr s) with Some d => if match param_type f k with Some t0 => valid_data (is_date date_of) t0 (VDate d) | None => true end then Some d else None | None => None end else None | None => None end = None) as ->.
    { destruct (param_type f k) as [t |]; auto. destruct (Ht t eq_refl) as [-> _]. reflexivity. }
    assert (json && none_text (VStr s) && match param_type f k with Some t => valid_data (is_date date_of) t VNone | None => true end = false) as ->.
    { destruct json; auto. cbn [andb]. destruct (none_text (VStr s)); auto. destruct (Hj eq_refl eq_refl) as (t & -> & [-> | (z & X)]); [auto | discriminate]. }
    assert (match param_type f k with Some t => negb (number_allowed t) | None => false end = false) as ->.
    { destruct (param_type f k) as [t |]; auto. destruct (Ht t eq_refl) as [_ ->]. reflexivity. }
    cbn [to_float]. now rewrite Hf.
  - destruct D as [<- Ht]. assert (match param_type f k with Some t => if datetime t then match adjust date_of (VStr s) with Some d => if match param_type f k with Some t0 => valid_data (is_date date_of) t0 (VDate d) | None => true end then Some d else None | None => None end else None | None => None end = None) as ->.
    { destruct (param_type f k) as [t |]; auto. destruct (datetime t) eqn:Ed; auto. cbn [adjust]. now rewrite Ht. }
    assert (json && none_text (VStr s) && match param_type f k with Some t => valid_data (is_date date_of) t VNone | None => true end = false) as ->.
    { destruct json; auto. cbn [andb]. destruct (none_text (VStr s)); auto. destruct (Hj eq_refl eq_refl) as (t & -> & [-> | (z & X)]); [auto | discriminate]. }
    destruct (param_type f k) as [t |] eqn:Et.
    + destruct (number_allowed t) eqn:Na; cbn [negb].
      * cbn [to_float]. destruct (datetime t) eqn:Ed; [rewrite (Hn t) | rewrite Ht]; auto.
      * now rewrite (Hv t eq_refl).
    + cbn [to_float]. now rewrite Ht.
  - destruct D as [(t & Et & Ed) Hs]. rewrite Et, Ed. cbn [adjust]. rewrite Hs. now rewrite (Hv t Et).
Qed.

(** ** Trailing rows of sheets *)

Lemma null_quiet : forall date_of float_of json f t x v, is_null v = true -> (f_flag f = VNone -> bias_now date_of f t x = Ret None) ->
  quiet date_of float_of json f t x v.
Proof.
  intros date_of float_of json f t x v N B. split; [| split; [| split]]; auto.
  - intros dt _. split; [intros _ H; congruence |]. intros _ _ _ _. destruct v; try discriminate; cbn [to_float]; auto.
  - intros m n _ ->. discriminate.
  - intros _ H. destruct v; discriminate.
Qed.

Lemma xls_pruned : forall date_of float_of settle str_of fl f src d, decl_ok (f_decl f) = true ->
  create_frames date_of float_of settle str_of false fl f src = Ret d ->
  exists d', create_xls date_of float_of settle str_of fl f src = Ret d' /\ forall t ts, In (t, ts) (plain_schema f) ->
    if value_eqb (f_xlsx f) (VStr "prune")
    then exists dropped, d t = d' t ++ dropped /\ (forall r, In r dropped -> forallb is_null r = true) /\
           (d' t = [] \/ exists front r, d' t = front ++ [r] /\ forallb is_null r = false)
    else d' t = d t.
Proof.
  intros date_of float_of settle str_of fl f src d Hd E. pose proof (plain_wf f Hd) as W. unfold create_xls. rewrite E. cbn [bindO].
  destruct (value_eqb (f_xlsx f) (VStr "prune")); [| exists d; auto].
  assert (exists L, mapO (fun tts : string * tschema => bindO (remove_trailing_all_nan (forallb is_null) (d (fst tts))) (fun l => Ret (fst tts, l))) (plain_schema f) = Ret L) as (L & EL).
  { apply mapO_total. intros [t ts] _. cbn [fst]. destruct (prune_exact (forallb is_null) (d t)) as (kp & dr & Ek & _). rewrite Ek. simpl. eauto. }
  rewrite EL. eexists. split; [reflexivity |]. intros t ts Hin.
  pose proof (tables_ret (fun tts : string * tschema => remove_trailing_all_nan (forallb is_null) (d (fst tts))) _ L t ts [] (proj1 W) EL Hin) as Et. cbn [fst] in Et.
  destruct (prune_exact (forallb is_null) (d t)) as (kp & dr & Ek & A & B & C). rewrite Ek in Et. injection Et as ->. eauto.
Qed.

Lemma app_last_cut {A} : forall (p : A -> bool) (a b c : list A), a ++ b = c -> (forall x, In x b -> p x = true) ->
  forall k dr, c = k ++ dr -> (k = [] \/ exists front r, k = front ++ [r] /\ p r = false) -> List.length k <= List.length a.
Proof.
  intros p a b c E Hb k dr Ec [-> | (front & r & -> & Hr)]; simpl; [lia |]. destruct (Nat.le_gt_cases (List.length (front ++ [r])) (List.length a)) as [H | H]; auto.
  exfalso. rewrite app_length in H. cbn [List.length] in H. rewrite <- E in Ec. assert (nth_error (a ++ b) (List.length front) = Some r) as X.
  { rewrite Ec. rewrite <- app_assoc. rewrite nth_error_app2 by lia. now rewrite Nat.sub_diag. }
  rewrite nth_error_app2 in X by lia. apply nth_error_In in X. rewrite (Hb r X) in Hr. discriminate.
Qed.

(** Rows of a sheet without any data at its end do not arrive. *)
Lemma blank_rows : forall date_of float_of settle str_of fl f src d' t ts fr l1 l2, decl_ok (f_decl f) = true -> params_shape f -> src_ok f src ->
  f_xlsx f = VStr "prune" -> create_xls date_of float_of settle str_of fl f src = Ret d' ->
  In (t, ts) (plain_schema f) -> t <> "parameters" -> (f_flag f = VNone -> forall x, In x (tfields ts) -> bias_now date_of f t x = Ret None) ->
  In (t, fr) src -> fr_rows fr = l1 ++ l2 -> (forall r x v, In r l2 -> In x (tfields ts) -> given fl (f_defaults f) t fr r x v -> is_null v = true) ->
  List.length (d' t) <= List.length l1.
Proof.
  intros date_of float_of settle str_of fl f src d' t ts fr l1 l2 Hd Hp Hs Hx E Hts Hne Hb Hfr El Hl2.
  destruct (create_frames date_of float_of settle str_of false fl f src) as [d |] eqn:Ed; [| unfold create_xls in E; rewrite Ed in E; discriminate].
  destruct (xls_pruned date_of float_of settle str_of fl f src d Hd Ed) as (d2 & E2 & P). rewrite E in E2. injection E2 as <-. specialize (P t ts Hts).
  rewrite Hx in P. replace (value_eqb (VStr "prune") (VStr "prune")) with true in P by reflexivity. destruct P as (dr & P1 & P2 & P3).
  destruct (frames_read date_of float_of settle str_of false fl f src Hd Hp Hs) as [_ R]. destruct (R d Ed t ts Hts) as [R1 _]. specialize (R1 fr Hfr). rewrite El in R1.
  apply Forall2_app_inv_l in R1 as (m1 & m2 & F1 & F2 & Em).
  rewrite (FramesFacts.Forall2_length _ _ _ F1). eapply (app_last_cut (forallb is_null) m1 m2 (d t)); eauto.
  intros row Hrow. apply forallb_forall. intros w Hw. 
  assert (exists r, In r l2 /\ Forall2 (fun x w => exists v, given fl (f_defaults f) t fr r x v /\
           ((t <> "parameters" /\ quiet date_of float_of false f t x v) \/ (t = "parameters" /\ (has_params f = false \/ In x (tpk ts))) -> w = v)) (tfields ts) row) as (r & Hr & F).
  { clear - F2 Hrow. induction F2 as [| r row' l m F _ IH]; [destruct Hrow |]. destruct Hrow as [<- | H]; [exists r; simpl; auto |]. destruct (IH H) as (r' & A & B). exists r'. simpl. auto. }
  assert (exists x v, In x (tfields ts) /\ given fl (f_defaults f) t fr r x v /\ ((t <> "parameters" /\ quiet date_of float_of false f t x v) \/ (t = "parameters" /\ (has_params f = false \/ In x (tpk ts))) -> w = v)) as (x & v & Hx' & Hv & Hw').
  { clear - F Hw. revert F. generalize (tfields ts). intros xs F. induction F as [| x w' xs row (v & A & B) _ IH]; [destruct Hw |].
    destruct Hw as [<- | H]; [exists x, v; simpl; auto |]. destruct (IH H) as (x' & v' & A' & B'). exists x', v'. simpl. auto. }
  pose proof (Hl2 r x v Hr Hx' Hv) as Hn. rewrite Hw'; auto. left. split; auto. apply null_quiet; auto.
Qed.

(** ** Directories *)

Definition own_files (asked : bool) (tables : list string) (names : list string) : Prop :=
  NoDup names /\ forall n t, In n names -> In t tables -> unspace n = append (lower t) ".csv" -> n = csv_name asked tables t.

Lemma csv_unspace : forall asked tables t, has_char " " t = false -> unspace (csv_name asked tables t) = append (lower t) ".csv".
Proof. intros. unfold csv_name. rewrite unspace_app, out_name_unspace by auto. reflexivity. Qed.

Lemma dset_fold {C} : forall (nm : string -> string) (d : string -> C) ts dir, (forall a b, In a ts -> In b ts -> nm a = nm b -> a = b) -> NoDup (map fst dir) ->
  let dir' := fold_left (fun dir t => dset String.eqb dir (nm t) (d t)) ts dir in
  NoDup (map fst dir') /\ (forall n, In n (map fst dir') <-> In n (map fst dir) \/ In n (map nm ts)) /\
  (forall t, In t ts -> dget String.eqb dir' (nm t) = Some (d t)) /\ (forall n, ~ In n (map nm ts) -> dget String.eqb dir' n = dget String.eqb dir n).
Proof.
  intros nm d ts. induction ts as [| t ts IH]; intros dir Inj N; cbn [fold_left].
  - split; auto. split; [intros n; simpl; tauto |]. split; [intros t [] | auto].
  - assert (NoDup (map fst (dset String.eqb dir (nm t) (d t))) /\ forall n, In n (map fst (dset String.eqb dir (nm t) (d t))) <-> In n (map fst dir) \/ n = nm t) as [N1 M1].
    { destruct (dget String.eqb dir (nm t)) as [c |] eqn:E.
      - rewrite dset_keys_mem by congruence. split; auto. intros n. split; [auto |]. intros [H | ->]; auto. apply dget_In_NoDup in E; auto. now apply (in_map fst) in E.
      - rewrite (dset_absent String.eqb) by auto. rewrite map_app. cbn [map fst]. split.
        + apply NoDup_app_intro; auto; [constructor; [intros [] | constructor] |]. intros x Hx [<- | []]. apply in_map_iff in Hx as ([k c] & Ek & Hx). cbn [fst] in Ek. subst k.
          apply dget_In_NoDup in Hx; auto. congruence.
        + intros n. rewrite in_app_iff. simpl. intuition. }
    destruct (IH (dset String.eqb dir (nm t) (d t)) (fun a b Ha Hb => Inj a b (or_intror Ha) (or_intror Hb)) N1) as (A & B & C0 & D). split; auto. split; [| split].
    + intros n. rewrite B, M1. simpl. intuition.
    + intros t' [<- | H]; auto. destruct (in_dec string_dec (nm t) (map nm ts)) as [Hi | Hi].
      * apply in_map_iff in Hi as (t' & Et & Hi). rewrite <- Et. assert (t' = t) as -> by (apply Inj; simpl; auto). auto.
      * rewrite D by auto. apply dget_dset_same. apply String.eqb_refl.
    + intros n Hn. rewrite D by (simpl in Hn; tauto). apply (dget_dset_other String.eqb String.eqb_sym); [intros a b c E1 E2; apply String.eqb_eq in E1, E2; subst; apply String.eqb_refl |]. apply String.eqb_neq. intros E. apply Hn. simpl. auto.
Qed.

Lemma csv_put_get {C} : forall asked tables (d : string -> C) dir t, legal_names tables -> own_files asked tables (map fst dir) -> In t tables ->
  own_files asked tables (map fst (csv_put asked tables d dir)) /\ csv_get (csv_put asked tables d dir) t = Ret (Some (d t)) /\
  (forall n, ~ In n (map (csv_name asked tables) tables) -> dget String.eqb (csv_put asked tables d dir) n = dget String.eqb dir n).
Proof.
  intros asked tables d dir t L [N O] Ht. unfold csv_put.
  destruct (dset_fold (csv_name asked tables) d tables dir) as (A & B & C0 & D); auto; [intros; eapply csv_name_inj; eauto |].
  set (dir' := fold_left _ tables dir) in *.
  assert (forall n t, In n (map fst dir') -> In t tables -> unspace n = append (lower t) ".csv" -> n = csv_name asked tables t) as O'.
  { intros n t' Hn Ht' E. apply B in Hn as [Hn | Hn]; [auto |]. apply in_map_iff in Hn as (t2 & <- & H2). rewrite csv_unspace in E by (now apply L).
    f_equal. apply (legal_inj tables); auto. clear - E. now apply append_inj_r in E. }
  split; [split; auto |]. split; auto. unfold csv_get, get_file_path.
  assert (filter (fun e => snd e && csv_match t (fst e)) (map (fun e : string * C => (fst e, true)) dir') = [(csv_name asked tables t, true)]) as ->.
  { apply find_one.
    - assert (map (fun e : string * C => (fst e, true)) dir' = map (fun n => (n, true)) (map fst dir')) as -> by (now rewrite map_map). apply FinFun.Injective_map_NoDup; auto. intros a b X. congruence.
    - assert (In (csv_name asked tables t) (map fst dir')) as H by (apply B; right; now apply in_map). apply in_map_iff in H as ([n c] & E & H). apply in_map_iff. exists (n, c). cbn [fst] in *. split; auto. now rewrite E.
    - cbn [fst snd andb]. now apply (csv_match_own asked tables t t).
    - intros [n b] Hn Hp. apply in_map_iff in Hn as ([n' c] & E & Hn). cbn [fst] in E. injection E as <- <-. cbn [fst snd andb] in Hp. f_equal. apply O'; auto; [now apply (in_map fst) in Hn |].
      unfold csv_match in Hp. now apply String.eqb_eq in Hp. }
  cbn [fst]. now rewrite C0.
Qed.

Lemma csv_history {C} : forall asked tables (ds : list (string -> C)) dir, legal_names tables -> own_files asked tables (map fst dir) -> tables <> [] ->
  own_files asked tables (map fst (fold_left (fun dir d => csv_put asked tables d dir) ds dir)).
Proof.
  intros asked tables ds. induction ds as [| d ds IH]; intros dir L O Hne; auto. cbn [fold_left]. apply IH; auto.
  destruct tables as [| t tables]; [contradiction |]. apply (csv_put_get asked (t :: tables) d dir t); simpl; auto.
Qed.

(** ** Databases *)

Definition own_tables (asked : bool) (tables : list string) (names : list string) : Prop :=
  NoDup (map lower names) /\ forall n t, In n names -> In t tables -> unspace n = lower t -> n = out_name asked tables t.

Lemma own_lower : forall asked tables names n t, legal_names tables -> own_tables asked tables names -> In n names -> In t tables ->
  lower n = lower (out_name asked tables t) -> n = out_name asked tables t.
Proof. intros asked tables names n t L [_ O] Hn Ht E. apply O; auto. rewrite (lower_unspace_eq _ _ E). apply out_name_unspace. now apply L. Qed.

Lemma lower_out_inj : forall asked tables a b, legal_names tables -> In a tables -> In b tables -> lower (out_name asked tables a) = lower (out_name asked tables b) -> a = b.
Proof.
  intros asked tables a b L Ha Hb E. apply (legal_inj tables); auto. apply lower_unspace_eq in E. now rewrite !out_name_unspace in E by (now apply L).
Qed.

Lemma sql_put_one_ok {C} : forall asked tables (db : list (string * C)) t c, legal_names tables -> own_tables asked tables (map fst db) -> In t tables ->
  exists db', sql_put_one db (out_name asked tables t) c = Some db' /\ own_tables asked tables (map fst db') /\
    forall n x, In (n, x) db' <-> (n = out_name asked tables t /\ x = c) \/ (In (n, x) db /\ n <> out_name asked tables t).
Proof.
  intros asked tables db t c L O Ht. unfold sql_put_one. set (nt := out_name asked tables t). set (db1 := filter _ db).
  assert (forall n x, In (n, x) db1 <-> In (n, x) db /\ n <> nt) as M.
  { intros n x. unfold db1. rewrite filter_In. cbn [fst]. rewrite negb_true_iff, String.eqb_neq. reflexivity. }
  assert (mem_str (lower nt) (map (fun e : string * C => lower (fst e)) db1) = false) as Em.
  { apply mem_str_false. intros H. apply in_map_iff in H as ([n x] & E & H). cbn [fst] in E. apply M in H as [H1 H2]. apply H2.
    eapply own_lower; eauto. now apply (in_map fst) in H1. }
  rewrite Em. eexists. split; [reflexivity |]. split.
  - destruct O as [N O]. split.
    + rewrite map_app, map_app. cbn [map fst]. apply NoDup_app_intro.
      * assert (forall (p : string * C -> bool) l, NoDup (map lower (map fst l)) -> NoDup (map lower (map fst (filter p l)))) as G; [| now apply G].
        clear. intros p l. induction l as [| e l IH]; auto. cbn [map filter]. intros N. inversion N as [| ? ? N1 N2]; subst. destruct (p e); auto. cbn [map]. constructor; auto.
        intros H. apply N1. apply in_map_iff in H as (n & En & H). apply in_map_iff in H as (e' & Ee & H). apply filter_In in H as [H _]. rewrite <- En, <- Ee. apply in_map. now apply in_map.
      * constructor; [intros [] | constructor].
      * intros x Hx [<- | []]. apply mem_str_false in Em. apply Em. now rewrite map_map in Hx.
    + intros n t' Hn Ht' E. rewrite map_app in Hn. apply in_app_or in Hn as [Hn | [<- | []]].
      * apply O; auto. apply in_map_iff in Hn as ([n' x] & En & Hn). cbn [fst] in En. subst n'. apply M in Hn as [Hn _]. now apply (in_map fst) in Hn.
      * cbn [fst] in *. unfold nt in *. rewrite out_name_unspace in E by (now apply L). f_equal. now apply (legal_inj tables).
  - intros n x. rewrite in_app_iff. rewrite M. simpl. split.
    + intros [H | [E | []]]; auto. injection E as <- <-. auto.
    + intros [[-> ->] | H]; auto.
Qed.

Lemma sql_put_ok {C} : forall asked tables (d : string -> C) ts db, legal_names tables -> own_tables asked tables (map fst db) -> (forall t, In t ts -> In t tables) -> NoDup ts ->
  exists db', sql_put (out_name asked tables) d ts db = (db', true) /\ own_tables asked tables (map fst db') /\
    forall n x, In (n, x) db' <-> (exists t, In t ts /\ n = out_name asked tables t /\ x = d t) \/ (In (n, x) db /\ ~ In n (map (out_name asked tables) ts)).
Proof.
  intros asked tables d ts. induction ts as [| t ts IH]; intros db L O Hs N; cbn [sql_put].
  - exists db. split; auto. split; auto. intros n x. split; [intros H; right; split; auto | intros [(t & [] & _) | [H _]]; auto].
  - inversion N as [| ? ? N1 N2]; subst. destruct (sql_put_one_ok asked tables db t (d t) L O (Hs t (or_introl eq_refl))) as (db1 & E1 & O1 & M1). rewrite E1.
    destruct (IH db1 L O1 (fun t' H => Hs t' (or_intror H)) N2) as (db' & E' & O' & M'). exists db'. split; auto. split; auto. intros n x. rewrite M', M1. split.
    + intros [(t' & A & B & C0) | [[[A B] | [A B]] D]].
      * left. exists t'. simpl. auto.
      * left. exists t. simpl. auto.
      * right. split; auto. simpl. intros [X | X]; [now apply B | auto].
    + intros [(t' & [<- | A] & B & C0) | [A B]].
      * right. split; auto. subst n. intros H. apply in_map_iff in H as (t2 & E2 & H2). apply N1. assert (t2 = t) as <-; auto.
        apply (out_name_inj asked tables); auto; apply Hs; simpl; auto.
      * left. eauto.
      * right. simpl in B. split; [right; split; auto |]; intros X; apply B; auto.
Qed.

Lemma sql_put_get {C} : forall asked tables (d : string -> C) db, legal_names tables -> own_tables asked tables (map fst db) ->
  exists db', sql_put (out_name asked tables) d tables db = (db', true) /\ own_tables asked tables (map fst db') /\
    (forall t, In t tables -> sql_get db' t = Ret (Some (d t))) /\
    (forall n x, ~ In n (map (out_name asked tables) tables) -> In (n, x) db' <-> In (n, x) db).
Proof.
  intros asked tables d db L O. destruct (sql_put_ok asked tables d tables db L O (fun _ H => H) (legal_NoDup _ L)) as (db' & E & O' & M). exists db'. split; auto. split; auto. split.
  - intros t Ht. unfold sql_get.
    destruct (get_db_table_own asked tables (map fst db') (filter (fun n => negb (mem_str n (map (out_name asked tables) tables))) (map fst db')) t) as (n & En & El); auto.
    + intros n. rewrite in_app_iff, filter_In. split.
      * intros H. destruct (mem_str n (map (out_name asked tables) tables)) eqn:Em; [left; now apply mem_str_iff in Em | right; auto].
      * intros [H | [H _]]; auto. apply in_map_iff in H as (t' & <- & H). assert (In (out_name asked tables t', d t') db') as X by (apply M; left; eauto). now apply (in_map fst) in X.
    + intros n t' Hn Ht' Eu. apply filter_In in Hn as [Hn Hm]. apply negb_true_iff in Hm. apply mem_str_false in Hm. apply Hm. rewrite (proj2 O' n t' Hn Ht' Eu). now apply in_map.
    + rewrite En. assert (In (out_name asked tables t, d t) db') as Hin by (apply M; left; eauto).
      destruct (find (fun e : string * C => String.eqb (lower (fst e)) (lower n)) db') as [[n' x] |] eqn:Ef.
      * cbn [option_map snd]. apply find_some in Ef as [Ef Ex]. cbn [fst] in Ex. apply String.eqb_eq in Ex.
        assert (n' = out_name asked tables t) as ->.
        { eapply own_lower; [exact L | exact O' | now apply (in_map fst) in Ef | auto | congruence]. }
        f_equal. f_equal. apply M in Ef as [(t' & A & B & ->) | [_ B]].
        -- f_equal. apply (out_name_inj asked tables); auto.
        -- exfalso. apply B. now apply in_map.
      * exfalso. apply (find_none _ _ Ef) in Hin. cbn [fst] in Hin. rewrite El, String.eqb_refl in Hin. discriminate.
  - intros n x Hn. rewrite M. split; [intros [(t & A & -> & _) | [H _]]; auto | auto]. exfalso. apply Hn. now apply in_map.
Qed.

(** ** json is written unless a table is generic or the meaning of nulls is not clear *)

Lemma json_write_raises : forall date_of show_date f d, 
  write_json date_of show_date f d = Raise <->
    (exists t, In (t, Generic) (f_decl f)) \/
    (f_flag f = VNone /\ exists t ts x, In (t, Fields ts) (f_decl f) /\ t <> "parameters" /\ In x (tfields ts) /\ bias_now date_of f t x = Raise).
Proof.
  intros date_of show_date f d. unfold write_json. induction (f_decl f) as [| [t td] l IH]; cbn [mapO].
  - split; [discriminate |]. intros [(t & []) | (_ & t & ts & x & [] & _)].
  - cbn [fst snd]. destruct td as [| ts].
    + split; auto. intros _. left. exists t. simpl. auto.
    + assert (pan_write date_of f t (tfields ts) (d t) = Raise <-> f_flag f = VNone /\ t <> "parameters" /\ exists x, In x (tfields ts) /\ bias_now date_of f t x = Raise) as Hw.
      { unfold pan_write. destruct (String.eqb t "parameters") eqn:Et.
        - apply String.eqb_eq in Et. split; [discriminate | intros (_ & X & _); contradiction].
        - apply String.eqb_neq in Et. pose proof (biases_raise date_of f t (tfields ts)) as B. destruct (f_flag f) eqn:Ef; try (split; [discriminate | intros (X & _); discriminate]).
          destruct (biases date_of f t (tfields ts)).
          + split; [discriminate |]. intros (X & _ & Y). assert (Ret o = Raise) by (apply B; auto). discriminate.
          + split; auto. intros _. destruct (proj1 B eq_refl) as [X Y]. auto. }
      destruct (pan_write date_of f t (tfields ts) (d t)) as [w |] eqn:Ew; cbn [bindO].
      * destruct (mapO _ l) as [m |]; cbn [bindO].
        -- split; [discriminate |]. intros [(t' & [X | H]) | (Ef & t' & ts' & x & [X | H] & A & B & C)]; [discriminate | | |].
           ++ assert (Ret m = Raise) by (apply IH; left; eauto). discriminate.
           ++ injection X as <- <-. assert (Ret w = Raise) by (apply Hw; split; auto; split; auto; exists x; auto). discriminate.
           ++ assert (Ret m = Raise) by (apply IH; right; split; auto; exists t', ts', x; auto). discriminate.
        -- split; auto. intros _. destruct (proj1 IH eq_refl) as [(t' & H) | (Ef & t' & ts' & x & H & R)]; [left; exists t'; simpl; auto | right; split; auto; exists t', ts', x; simpl; auto].
      * split; auto. intros _. right. destruct (proj1 Hw eq_refl) as (Ef & Hne & x & Hx & B). split; auto. exists t, ts, x. simpl. auto.
Qed.
