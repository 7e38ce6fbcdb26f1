(** * Facts about names *)
From Coq Require Import Bool List String Ascii Arith NArith Lia Permutation.
From Verif Require Import PyVal PyValFacts PyDict PyDictFacts PyStr ListFacts FK Factory FactoryFacts InfIO Names.
Import ListNotations.
Local Open Scope string_scope.

Arguments Ascii.eqb : simpl never.
Arguments lower_char : simpl never.
Arguments upper_char : simpl never.

(** ** Characters, by computation over the 256 cases *)

Definition all_chars : list ascii := map ascii_of_nat (seq 0 256).

Lemma all_chars_In : forall c, In c all_chars.
Proof.
  intros c. unfold all_chars. rewrite in_map_iff. exists (nat_of_ascii c).
  split; [apply ascii_nat_embedding|]. rewrite in_seq. pose proof (nat_ascii_bounded c). lia.
Qed.

Lemma char_forall : forall p : ascii -> bool, forallb p all_chars = true -> forall c, p c = true.
Proof. intros p H c. rewrite forallb_forall in H. apply H, all_chars_In. Qed.

Ltac char_case c p :=
  let H := fresh "K" in pose proof (char_forall p ltac:(vm_compute; reflexivity) c) as H; cbv beta in H.

Lemma lower_upper_char : forall c, lower_char (upper_char c) = lower_char c.
Proof.
  intros c. char_case c (fun c => Ascii.eqb (lower_char (upper_char c)) (lower_char c)).
  now apply Ascii.eqb_eq.
Qed.
Lemma lower_lower_char : forall c, lower_char (lower_char c) = lower_char c.
Proof.
  intros c. char_case c (fun c => Ascii.eqb (lower_char (lower_char c)) (lower_char c)).
  now apply Ascii.eqb_eq.
Qed.
Lemma upper_underscore : forall c, Ascii.eqb (upper_char c) "_" = Ascii.eqb c "_".
Proof.
  intros c. char_case c (fun c => Bool.eqb (Ascii.eqb (upper_char c) "_") (Ascii.eqb c "_")).
  now apply Bool.eqb_prop.
Qed.
Lemma lower_space : forall c, Ascii.eqb (lower_char c) " " = Ascii.eqb c " ".
Proof.
  intros c. char_case c (fun c => Bool.eqb (Ascii.eqb (lower_char c) " ") (Ascii.eqb c " ")).
  now apply Bool.eqb_prop.
Qed.
Lemma lower_underscore : forall c, Ascii.eqb (lower_char c) "_" = Ascii.eqb c "_".
Proof.
  intros c. char_case c (fun c => Bool.eqb (Ascii.eqb (lower_char c) "_") (Ascii.eqb c "_")).
  now apply Bool.eqb_prop.
Qed.
Lemma upper_space : forall c, Ascii.eqb (upper_char c) " " = Ascii.eqb c " ".
Proof.
  intros c. char_case c (fun c => Bool.eqb (Ascii.eqb (upper_char c) " ") (Ascii.eqb c " ")).
  now apply Bool.eqb_prop.
Qed.

(** ** Strings *)

Lemma smap_app : forall f a b, smap f (a ++ b) = smap f a ++ smap f b.
Proof. induction a; simpl; intros; [reflexivity|now rewrite IHa]. Qed.

Lemma stake_smap : forall f n s, stake n (smap f s) = smap f (stake n s).
Proof. induction n; destruct s; simpl; intros; auto. now rewrite IHn. Qed.

Lemma unspace_app : forall a b, unspace (a ++ b) = unspace a ++ unspace b.
Proof. intros. unfold unspace, lower. now rewrite !smap_app. Qed.

Lemma append_inj_r : forall s a b : string, a ++ s = b ++ s -> a = b.
Proof.
  intros s a b H.
  assert (L : String.length a = String.length b).
  { apply (f_equal String.length) in H.
    assert (Q : forall x y : string, String.length (x ++ y) = String.length x + String.length y).
    { induction x; simpl; intros; auto. }
    rewrite !Q in H. lia. }
  revert b H L. induction a as [|c a IH]; destruct b as [|c' b]; simpl; intros H L; try discriminate; auto.
  injection H as -> H. f_equal. apply IH; auto.
Qed.

Lemma unspace_nospace : forall s, has_char " " s = false -> unspace s = lower s.
Proof.
  induction s as [|c s IH]; simpl; intros H; [reflexivity|].
  apply orb_false_iff in H. destruct H as [H1 H2].
  unfold unspace, lower in *. simpl. f_equal; [|now apply IH].
  rewrite lower_space, Ascii.eqb_sym, H1. reflexivity.
Qed.

Lemma pretty_go_unspace : forall s up, has_char " " s = false -> unspace (pretty_go up s) = lower s.
Proof.
  induction s as [|c s IH]; simpl; intros up H; [reflexivity|].
  apply orb_false_iff in H. destruct H as [H1 H2]. rewrite Ascii.eqb_sym in H1.
  unfold unspace, lower in *.
  assert (U : Ascii.eqb (if up then upper_char c else c) "_" = Ascii.eqb c "_").
  { destruct up; auto using upper_underscore. }
  rewrite U. destruct (Ascii.eqb c "_") eqn:E.
  - apply Ascii.eqb_eq in E. subst c. simpl. f_equal. now apply IH.
  - simpl. f_equal; [|now apply IH].
    rewrite lower_space. destruct up.
    + rewrite upper_space, H1. apply lower_upper_char.
    + now rewrite H1.
Qed.

Lemma pretty_unspace : forall s, has_char " " s = false -> unspace (pretty s) = lower s.
Proof. intros. now apply pretty_go_unspace. Qed.

Lemma out_name_unspace : forall asked tables s, has_char " " s = false ->
  unspace (out_name asked tables s) = lower s.
Proof.
  intros. unfold out_name. destruct (use_pretty asked tables);
    auto using pretty_unspace, unspace_nospace.
Qed.

(** ** Accepted table names *)

(** What TicDatFactory.__init__ (653-660) guarantees about table names. *)
Definition legal_names (tables : list string) : Prop :=
  NoDup (map lower tables) /\ forall t, In t tables -> has_char " " t = false.

Lemma decl_ok_legal : forall l, decl_ok l = true -> legal_names (map fst l).
Proof.
  intros l H. unfold decl_ok in H. rewrite !andb_true_iff in H. destruct H as [[[_ H1] H2] _].
  split.
  - apply distinct_b_iff in H2. now rewrite map_map.
  - intros t Ht. apply in_map_iff in Ht. destruct Ht as [[t' d] [<- Ht]]. simpl.
    rewrite forallb_forall in H1. specialize (H1 _ Ht). now apply negb_true_iff in H1.
Qed.

Lemma legal_NoDup : forall tables, legal_names tables -> NoDup tables.
Proof. intros tables [H _]. now apply NoDup_map_inv' in H. Qed.

Lemma legal_inj : forall tables a b, legal_names tables -> In a tables -> In b tables ->
  lower a = lower b -> a = b.
Proof. intros tables a b [H _] Ha Hb E. now apply (NoDup_map_inj_in lower tables). Qed.

(** ** The three look-ups *)

Lemma find_one {A} (p : A -> bool) : forall l x, NoDup l -> In x l -> p x = true ->
  (forall y, In y l -> p y = true -> y = x) -> filter p l = [x].
Proof.
  induction l as [|a l IH]; intros x Hnd Hx Px Hu; [contradiction|].
  inversion Hnd; subst. simpl. destruct (p a) eqn:Pa.
  - assert (a = x) by (apply Hu; simpl; auto). subst a. f_equal.
    destruct (filter p l) as [|b q] eqn:E; auto.
    assert (B : In b (filter p l)) by (rewrite E; simpl; auto).
    apply filter_In in B. destruct B as [B1 B2].
    assert (b = x) by (apply Hu; simpl; auto). now subst b.
  - destruct Hx as [->|Hx]; [congruence|]. apply IH; auto. intros; apply Hu; simpl; auto.
Qed.

Lemma csv_match_own : forall asked tables t t', legal_names tables -> In t tables -> In t' tables ->
  csv_match t' (csv_name asked tables t) = true <-> t' = t.
Proof.
  intros asked tables t t' L Ht Ht'. unfold csv_match, csv_name.
  rewrite String.eqb_eq, unspace_app, out_name_unspace by (apply L; auto).
  change (unspace ".csv") with ".csv". split.
  - intros E. apply append_inj_r in E. symmetry. eapply legal_inj; eauto.
  - now intros ->.
Qed.

Lemma csv_name_inj : forall asked tables t t', legal_names tables -> In t tables -> In t' tables ->
  csv_name asked tables t = csv_name asked tables t' -> t = t'.
Proof.
  intros asked tables t t' L Ht Ht' E.
  apply (csv_match_own asked tables t' t L Ht' Ht). rewrite <- E.
  now apply (csv_match_own asked tables t t L Ht Ht).
Qed.

Lemma json_match_own : forall asked tables t t', legal_names tables -> In t tables -> In t' tables ->
  json_match t' (out_name asked tables t) = true <-> t' = t.
Proof.
  intros asked tables t t' L Ht Ht'. unfold json_match.
  rewrite String.eqb_eq, out_name_unspace by (apply L; auto). split.
  - intros E. symmetry. eapply legal_inj; eauto.
  - now intros ->.
Qed.

Lemma out_name_inj : forall asked tables t t', legal_names tables -> In t tables -> In t' tables ->
  out_name asked tables t = out_name asked tables t' -> t = t'.
Proof.
  intros asked tables t t' L Ht Ht' E.
  apply (json_match_own asked tables t' t L Ht' Ht). rewrite <- E.
  now apply (json_match_own asked tables t t L Ht Ht).
Qed.

Lemma filter_none' {A} (p : A -> bool) : forall l, (forall x, In x l -> p x = false) -> filter p l = [].
Proof.
  induction l as [|a l IH]; simpl; intros H; auto. rewrite (H a) by auto. apply IH. auto.
Qed.

Lemma Permutation_filter {A} (p : A -> bool) : forall l l', Permutation l l' ->
  Permutation (filter p l) (filter p l').
Proof.
  induction 1; simpl; auto.
  - destruct (p x); auto.
  - destruct (p x), (p y); auto; constructor.
  - eapply perm_trans; eauto.
Qed.

Lemma perm_one {A} (p : A -> bool) : forall l l' x, Permutation l l' -> filter p l' = [x] -> filter p l = [x].
Proof.
  intros l l' x H E. apply (Permutation_filter p) in H. rewrite E in H.
  now apply Permutation_sym, Permutation_length_1_inv in H.
Qed.

Lemma NoDup_map_inj {A B} (f : A -> B) : forall l, NoDup l ->
  (forall a b, In a l -> In b l -> f a = f b -> a = b) -> NoDup (map f l).
Proof.
  induction 1; simpl; intros H1; constructor.
  - intros Hin. apply in_map_iff in Hin. destruct Hin as [b [E Hb]].
    assert (b = x) by (apply H1; simpl; auto). now subst.
  - apply IHNoDup. intros; apply H1; simpl; auto.
Qed.

Lemma get_file_path_own : forall asked tables listing others t,
  legal_names tables -> In t tables ->
  Permutation listing (map (fun t => (csv_name asked tables t, true)) tables ++ others)%list ->
  (forall f t', In (f, true) others -> In t' tables -> unspace f <> lower t' ++ ".csv") ->
  get_file_path listing t = Ret (Some (csv_name asked tables t)).
Proof.
  intros asked tables listing others t L Ht P Ho. unfold get_file_path.
  assert (F : filter (fun e => snd e && csv_match t (fst e)) listing = [(csv_name asked tables t, true)]).
  { eapply perm_one; [exact P|]. rewrite filter_app.
    rewrite (filter_none' _ others), app_nil_r.
    - apply find_one.
      + apply NoDup_map_inj; [now apply legal_NoDup|]. intros a b Ha Hb E. injection E as E.
        eapply csv_name_inj; eauto.
      + apply in_map_iff. eauto.
      + simpl. now apply csv_match_own.
      + intros y Hy Hp. apply in_map_iff in Hy. destruct Hy as [t' [<- Ht']]. simpl in Hp.
        apply csv_match_own in Hp; auto. now subst.
    - intros [f b] Hf. simpl. destruct b; auto. simpl. unfold csv_match.
      apply String.eqb_neq. eauto. }
  now rewrite F.
Qed.

Lemma get_json_key_own : forall asked tables keys others t,
  legal_names tables -> In t tables ->
  Permutation keys (map (out_name asked tables) tables ++ others)%list ->
  (forall k t', In k others -> In t' tables -> unspace k <> lower t') ->
  get_json_key keys t = Ret (Some (out_name asked tables t)).
Proof.
  intros asked tables keys others t L Ht P Ho. unfold get_json_key.
  assert (F : filter (json_match t) keys = [out_name asked tables t]).
  { eapply perm_one; [exact P|]. rewrite filter_app.
    rewrite (filter_none' _ others), app_nil_r.
    - apply find_one.
      + apply NoDup_map_inj; [now apply legal_NoDup|]. intros; eapply out_name_inj; eauto.
      + now apply in_map.
      + now apply json_match_own.
      + intros y Hy Hp. apply in_map_iff in Hy. destruct Hy as [t' [<- Ht']].
        apply json_match_own in Hp; auto. now subst.
    - intros k Hk. unfold json_match. apply String.eqb_neq. eauto. }
  now rewrite F.
Qed.

(** ** Sheets *)

Lemma stake_stake : forall n s, stake n (stake n s) = stake n s.
Proof. induction n; destruct s; simpl; auto. now rewrite IHn. Qed.

Lemma stake_unspace : forall n s, stake n (unspace s) = unspace (stake n s).
Proof. intros. unfold unspace, lower. now rewrite !stake_smap. Qed.

Lemma stake_lower : forall n s, stake n (lower s) = lower (stake n s).
Proof. intros. unfold lower. now rewrite !stake_smap. Qed.

Lemma pretty_go_lower : forall s up,
  lower (pretty_go up s) = smap (fun c => if Ascii.eqb c "_" then " "%char else c) (lower s).
Proof.
  induction s as [|c s IH]; simpl; intros up; [reflexivity|].
  assert (U : Ascii.eqb (if up then upper_char c else c) "_" = Ascii.eqb c "_").
  { destruct up; auto using upper_underscore. }
  rewrite U. unfold lower in *. rewrite lower_underscore. destruct (Ascii.eqb c "_") eqn:E.
  - simpl. f_equal. apply IH.
  - simpl. f_equal; [|apply IH]. destruct up; auto using lower_upper_char.
Qed.

Lemma out_name_lower : forall asked tables a b,
  stake longest_sheet (lower a) = stake longest_sheet (lower b) ->
  lower (sheet_name asked tables a) = lower (sheet_name asked tables b).
Proof.
  intros asked tables a b E. unfold sheet_name, out_name. rewrite <- !stake_lower.
  destruct (use_pretty asked tables); auto. unfold pretty. rewrite !pretty_go_lower, !stake_smap.
  now rewrite E.
Qed.

Lemma sheet_match_iff : forall asked tables t t', has_char " " t = false ->
  sheet_match t' (sheet_name asked tables t) = true <->
  stake longest_sheet (lower t') = stake longest_sheet (lower t).
Proof.
  intros. unfold sheet_match, sheet_name. rewrite String.eqb_eq, <- stake_unspace, stake_stake.
  now rewrite out_name_unspace.
Qed.

Lemma mem_str_iff : forall x l, mem_str x l = true <-> In x l.
Proof.
  intros x l. unfold mem_str. rewrite existsb_exists. split.
  - intros [y [H E]]. apply String.eqb_eq in E. now subst.
  - intros H. exists x. split; auto. apply String.eqb_refl.
Qed.

Lemma mem_str_false : forall x l, mem_str x l = false <-> ~ In x l.
Proof.
  intros. rewrite <- mem_str_iff. destruct (mem_str x l); split; intros; congruence.
Qed.

Lemma write_sheets_spec : forall asked tables names, write_sheets asked tables = Ret names ->
  names = map (sheet_name asked tables) tables /\ NoDup (map (fun t => lower (sheet_name asked tables t)) tables).
Proof.
  intros asked tables names. unfold write_sheets. destruct (sheets_differ tables); [|discriminate].
  set (sn := sheet_name asked tables). clearbody sn.
  assert (G : forall l done, NoDup (map lower done) ->
    fold_left (fun acc t =>
      match acc with
      | Raise => Raise
      | Ret done => if mem_str (lower (sn t)) (map lower done) then Raise else Ret (done ++ [sn t])%list
      end) l (Ret done) = Ret names ->
    names = (done ++ map sn l)%list /\ NoDup (map lower done ++ map (fun t => lower (sn t)) l)%list).
  { induction l as [|t l IH]; simpl; intros done Hnd H.
    - injection H as <-. now rewrite !app_nil_r.
    - destruct (mem_str (lower (sn t)) (map lower done)) eqn:E.
      + exfalso. clear -H. induction l; simpl in H; [discriminate|auto].
      + apply mem_str_false in E. apply IH in H.
        * destruct H as [-> H]. rewrite map_app, <- app_assoc in H. now rewrite <- app_assoc.
        * rewrite map_app. apply NoDup_app_intro; auto.
          -- simpl. constructor; auto. constructor.
          -- intros x Hx [<-|[]]. contradiction. }
  intros H. apply G in H; [|constructor]. exact H.
Qed.

Lemma sheet_match_own : forall asked tables names t t', legal_names tables ->
  write_sheets asked tables = Ret names -> In t tables -> In t' tables ->
  (sheet_match t' (sheet_name asked tables t) = true <-> t' = t).
Proof.
  intros asked tables names t t' L W Ht Ht'. rewrite sheet_match_iff by (apply L; auto). split.
  - intros E. apply write_sheets_spec in W. destruct W as [_ W].
    apply (NoDup_map_inj_in _ _ _ _ W); auto. now apply out_name_lower.
  - now intros ->.
Qed.

Lemma write_sheets_written : forall asked tables, sheets_differ tables = true ->
  NoDup (map (fun t => lower (sheet_name asked tables t)) tables) -> write_sheets asked tables = Ret (map (sheet_name asked tables) tables).
Proof.
  intros asked tables Hd. unfold write_sheets. rewrite Hd. set (sn := sheet_name asked tables). clearbody sn.
  assert (G : forall l done, NoDup (map lower done ++ map (fun t => lower (sn t)) l)%list ->
    fold_left (fun acc t =>
      match acc with
      | Raise => Raise
      | Ret done => if mem_str (lower (sn t)) (map lower done) then Raise else Ret (done ++ [sn t])%list
      end) l (Ret done) = Ret (done ++ map sn l)%list).
  { induction l as [|t l IH]; simpl; intros done Hnd.
    - now rewrite app_nil_r.
    - replace (mem_str (lower (sn t)) (map lower done)) with false.
      + rewrite IH; rewrite ?map_app, <- app_assoc; [reflexivity | exact Hnd].
      + symmetry. apply mem_str_false. intros Hin. apply NoDup_remove_2 in Hnd. apply Hnd. apply in_or_app. now left. }
  intros H. apply (G tables [] H).
Qed.

Lemma get_sheet_own : forall asked tables names sheets others t,
  legal_names tables -> write_sheets asked tables = Ret names -> In t tables ->
  Permutation sheets (names ++ others)%list ->
  (forall s t', In s others -> In t' tables ->
     stake longest_sheet (unspace s) <> stake longest_sheet (lower t')) ->
  get_sheet sheets t = Ret (Some (sheet_name asked tables t)).
Proof.
  intros asked tables names sheets others t L W Ht P Ho. unfold get_sheet.
  pose proof (write_sheets_spec _ _ _ W) as [En Nd].
  assert (F : filter (sheet_match t) sheets = [sheet_name asked tables t]).
  { eapply perm_one; [exact P|]. subst names. rewrite filter_app.
    rewrite (filter_none' _ others), app_nil_r.
    - apply find_one.
      + rewrite <- (map_map (sheet_name asked tables) lower) in Nd. now apply NoDup_map_inv' in Nd.
      + now apply in_map.
      + eapply sheet_match_own; eauto.
      + intros y Hy Hp. apply in_map_iff in Hy. destruct Hy as [t' [<- Ht']].
        rewrite (sheet_match_own asked tables _ t' t L W) in Hp; auto. now subst.
    - intros s Hs. unfold sheet_match. apply String.eqb_neq. intros E. eapply Ho; eauto. }
  now rewrite F.
Qed.

(** ** Underscore replacements *)

Inductive sublist {A} : list A -> list A -> Prop :=
| sub_nil : sublist [] []
| sub_skip : forall x l l', sublist l l' -> sublist l (x :: l')
| sub_take : forall x l l', sublist l l' -> sublist (x :: l) (x :: l').

Lemma sublist_nil {A} : forall l : list A, sublist [] l.
Proof. induction l; constructor; auto. Qed.

Lemma sublist_len {A} : forall l l' : list A, sublist l l' -> List.length l <= List.length l'.
Proof. induction 1; simpl; lia. Qed.

Lemma sublist_In {A} : forall (l l' : list A) x, sublist l l' -> In x l -> In x l'.
Proof. induction 1; simpl; intuition. Qed.

Lemma combinations_iff {A} : forall (l : list A) r x,
  In x (combinations l r) <-> sublist x l /\ List.length x = r.
Proof.
  induction l as [|a l IH]; intros [|r] x; simpl.
  - split.
    + intros [<-|[]]. repeat constructor.
    + intros [_ H]. destruct x; [auto|discriminate].
  - split; [tauto|]. intros [H E]. inversion H; subst. discriminate.
  - split.
    + intros [<-|[]]. split; [apply sublist_nil|reflexivity].
    + intros [_ H]. destruct x; [auto|discriminate].
  - rewrite in_app_iff, in_map_iff. split.
    + intros [[y [<- H]]|H].
      * apply IH in H. destruct H. simpl. split; [now constructor|lia].
      * apply IH in H. destruct H. split; auto. now constructor.
    + intros [H E]. inversion H; subst.
      * right. apply IH. auto.
      * left. eexists. split; [reflexivity|]. apply IH. simpl in E. split; auto.
Qed.

Lemma NoDup_combinations {A} : forall (l : list A) r, NoDup l -> NoDup (combinations l r).
Proof.
  induction l as [|a l IH]; intros [|r] Hnd; simpl; try (repeat constructor; simpl; tauto).
  inversion Hnd; subst. apply NoDup_app_intro.
  - apply NoDup_map_inj; auto. intros x y _ _ E. now injection E.
  - now apply IH.
  - intros x Hx Hy. apply in_map_iff in Hx. destruct Hx as [y [<- Hx]].
    apply combinations_iff in Hy. destruct Hy as [Hy _].
    apply H1. eapply sublist_In; eauto. simpl; auto.
Qed.

Lemma sublist_ext {A} : forall (l : list A), NoDup l -> forall a b,
  sublist a l -> sublist b l -> (forall x, In x a <-> In x b) -> a = b.
Proof.
  induction l as [|x l IH]; intros Hnd a b Ha Hb E.
  - inversion Ha; inversion Hb; auto.
  - inversion Hnd as [|? ? Hx Hl]; subst.
    inversion Ha as [|? ? ? Sa|? a' ? Sa]; subst; inversion Hb as [|? ? ? Sb|? b' ? Sb]; subst.
    + apply IH; auto.
    + exfalso. apply Hx. apply (sublist_In _ _ _ Sa). apply E. simpl; auto.
    + exfalso. apply Hx. apply (sublist_In _ _ _ Sb). apply E. simpl; auto.
    + f_equal. apply IH; auto. intros y. split; intros Hy.
      * assert (Q : In y (x :: b')) by (apply E; simpl; auto). destruct Q as [<-|Q]; [|exact Q].
        exfalso. apply Hx. apply (sublist_In _ _ _ Sa Hy).
      * assert (Q : In y (x :: a')) by (apply E; simpl; auto). destruct Q as [<-|Q]; [|exact Q].
        exfalso. apply Hx. apply (sublist_In _ _ _ Sb Hy).
Qed.

Lemma positions_from_iff : forall s i p,
  In p (positions_from i s) <-> i <= p /\ String.get (p - i) s = Some "_"%char.
Proof.
  induction s as [|c s IH]; intros i p; simpl.
  - split; [tauto|]. intros [_ H]. destruct (p - i); discriminate.
  - destruct (Ascii.eqb c "_") eqn:E; simpl; rewrite IH.
    + apply Ascii.eqb_eq in E. subst c. split.
      * intros [<-|[H1 H2]]; [rewrite Nat.sub_diag; split; [lia|reflexivity]|].
        split; [lia|]. replace (p - i) with (S (p - S i)) by lia. exact H2.
      * intros [H1 H2]. destruct (Nat.eq_dec i p); [auto|right]. split; [lia|].
        replace (p - i) with (S (p - S i)) in H2 by lia. exact H2.
    + apply Ascii.eqb_neq in E. split.
      * intros [H1 H2]. split; [lia|]. replace (p - i) with (S (p - S i)) by lia. exact H2.
      * intros [H1 H2]. destruct (Nat.eq_dec i p).
        -- subst p. rewrite Nat.sub_diag in H2. simpl in H2. congruence.
        -- split; [lia|]. replace (p - i) with (S (p - S i)) in H2 by lia. exact H2.
Qed.

Lemma positions_iff : forall s p, In p (positions_from 0 s) <-> String.get p s = Some "_"%char.
Proof. intros. rewrite positions_from_iff, Nat.sub_0_r. intuition lia. Qed.

Lemma NoDup_positions : forall s i, NoDup (positions_from i s).
Proof.
  induction s as [|c s IH]; intros i; simpl; [constructor|].
  destruct (Ascii.eqb c "_"); auto. constructor; auto.
  rewrite positions_from_iff. lia.
Qed.

Lemma get_None_len : forall s p, String.get p s = None <-> String.length s <= p.
Proof.
  induction s as [|c s IH]; intros [|p]; simpl; split; intros; try discriminate; try lia; auto.
  - apply IH in H. lia.
  - apply IH. lia.
Qed.

Lemma get_blank : forall s i p, i < String.length s ->
  String.get p (blank_at s i) = if Nat.eqb p i then Some " "%char else String.get p s.
Proof.
  intros s i p. revert s p. unfold blank_at. induction i as [|i IH]; intros [|c s] p H; simpl in H; try lia.
  - destruct p; reflexivity.
  - destruct p; simpl; [reflexivity|]. rewrite <- IH by lia. reflexivity.
Qed.

Lemma get_ext : forall s s', (forall p, String.get p s = String.get p s') -> s = s'.
Proof.
  induction s as [|c s IH]; intros [|c' s'] H; auto.
  - specialize (H 0). discriminate.
  - specialize (H 0). discriminate.
  - f_equal; [specialize (H 0); simpl in H; congruence|]. apply IH. intros p. apply (H (S p)).
Qed.

Lemma get_blanks : forall ixs s p, (forall i, In i ixs -> i < String.length s) ->
  String.get p (fold_left blank_at ixs s) = if existsb (Nat.eqb p) ixs then Some " "%char else String.get p s.
Proof.
  induction ixs as [|i ixs IH]; simpl; intros s p H; [reflexivity|].
  assert (Hi : i < String.length s) by auto.
  assert (L : String.length (blank_at s i) = String.length s).
  { clear -Hi. unfold blank_at. revert i Hi. induction s as [|c s IHs]; intros [|i] H; simpl in *; try lia.
    rewrite IHs by lia. reflexivity. }
  rewrite IH by (intros; rewrite L; auto). rewrite get_blank by auto.
  destruct (Nat.eqb p i); simpl; auto. now destruct (existsb (Nat.eqb p) ixs).
Qed.

(** Some underscores of [s] turned into spaces, nothing else changed. *)
Definition space_variant (s s' : string) : Prop :=
  String.length s' = String.length s /\
  forall p c c', String.get p s = Some c -> String.get p s' = Some c' ->
    c' = c \/ (c = "_"%char /\ c' = " "%char).

Definition index_sets (s : string) : list (list nat) :=
  let pos := positions_from 0 s in flat_map (combinations pos) (seq 0 (List.length pos + 1)).

Lemma index_sets_iff : forall s x, In x (index_sets s) <-> sublist x (positions_from 0 s).
Proof.
  intros s x. unfold index_sets. rewrite in_flat_map. split.
  - intros [r [_ H]]. now apply combinations_iff in H.
  - intros H. exists (List.length x). split.
    + apply in_seq. apply sublist_len in H. lia.
    + now apply combinations_iff.
Qed.

Lemma NoDup_index_sets : forall s, NoDup (index_sets s).
Proof.
  intros s. unfold index_sets. eapply NoDup_flat_map with (tag := fun r => r) (tagb := @List.length nat).
  - rewrite map_id. apply seq_NoDup.
  - intros r _. apply NoDup_combinations, NoDup_positions.
  - intros r x _ Hx. now apply combinations_iff in Hx.
Qed.

Lemma index_sets_lt : forall s x i, In x (index_sets s) -> In i x -> i < String.length s.
Proof.
  intros s x i H Hi. apply index_sets_iff in H. apply (sublist_In _ _ _ H), positions_iff in Hi.
  destruct (Nat.lt_ge_cases i (String.length s)); auto.
  apply get_None_len in H0. congruence.
Qed.

Lemma replaced_inj : forall s a b, In a (index_sets s) -> In b (index_sets s) ->
  fold_left blank_at a s = fold_left blank_at b s -> a = b.
Proof.
  intros s a b Ha Hb E.
  apply (sublist_ext (positions_from 0 s)); [apply NoDup_positions| | |].
  1,2: now apply index_sets_iff.
  assert (G : forall a b, In a (index_sets s) -> In b (index_sets s) ->
    fold_left blank_at a s = fold_left blank_at b s -> forall x, In x a -> In x b).
  { clear. intros a b Ha Hb E x Hx.
    pose proof (f_equal (String.get x) E) as Q.
    rewrite !get_blanks in Q by eauto using index_sets_lt.
    assert (Xa : existsb (Nat.eqb x) a = true).
    { apply existsb_exists. exists x. split; auto. apply Nat.eqb_refl. }
    rewrite Xa in Q. destruct (existsb (Nat.eqb x) b) eqn:Xb.
    - apply existsb_exists in Xb. destruct Xb as [y [Hy Ey]]. apply Nat.eqb_eq in Ey. now subst.
    - apply index_sets_iff in Ha. apply (sublist_In _ _ _ Ha), positions_iff in Hx. congruence. }
  intros x. split; apply G; auto.
Qed.

Lemma replacements_NoDup : forall s, NoDup (all_underscore_replacements s).
Proof.
  intros s. apply (NoDup_map_inj (fun ixs => fold_left blank_at ixs s)); [apply NoDup_index_sets|].
  intros a b Ha Hb. now apply replaced_inj.
Qed.

Lemma sublist_filter {A} (p : A -> bool) : forall l, sublist (filter p l) l.
Proof. induction l as [|a l IH]; simpl; [constructor|]. destruct (p a); [now apply sub_take|now apply sub_skip]. Qed.

Lemma get_Some_lt : forall s p, p < String.length s -> exists c, String.get p s = Some c.
Proof.
  intros s p H. destruct (String.get p s) eqn:E; eauto. apply get_None_len in E. lia.
Qed.

Lemma len_from_get : forall s s' : string, (forall p, String.get p s = None <-> String.get p s' = None) ->
  String.length s = String.length s'.
Proof.
  intros s s' H.
  assert (A : String.length s' <= String.length s).
  { apply get_None_len, H, get_None_len. lia. }
  assert (B : String.length s <= String.length s').
  { apply get_None_len, H, get_None_len. lia. }
  lia.
Qed.

Lemma replacements_iff : forall s s', In s' (all_underscore_replacements s) <-> space_variant s s'.
Proof.
  intros s s'. unfold all_underscore_replacements. fold (index_sets s). rewrite in_map_iff. split.
  - intros [ixs [<- H]].
    assert (G : forall p, String.get p (fold_left blank_at ixs s) =
                if existsb (Nat.eqb p) ixs then Some " "%char else String.get p s).
    { intros p. apply get_blanks. eauto using index_sets_lt. }
    assert (M : forall p, existsb (Nat.eqb p) ixs = true -> String.get p s = Some "_"%char).
    { intros p Hp. apply existsb_exists in Hp. destruct Hp as [y [Hy Ey]]. apply Nat.eqb_eq in Ey. subst y.
      apply index_sets_iff in H. now apply (sublist_In _ _ _ H), positions_iff in Hy. }
    split.
    + apply len_from_get. intros p. rewrite G. destruct (existsb (Nat.eqb p) ixs) eqn:E; [|tauto].
      rewrite (M p E). split; discriminate.
    + intros p c c' Hc Hc'. rewrite G in Hc'. destruct (existsb (Nat.eqb p) ixs) eqn:E.
      * rewrite (M p E) in Hc. right. split; congruence.
      * left. congruence.
  - intros [L H].
    set (changed := fun p => match String.get p s' with Some c => Ascii.eqb c " " | None => false end).
    exists (filter changed (positions_from 0 s)). split.
    + apply get_ext. intros p. rewrite get_blanks.
      * destruct (existsb (Nat.eqb p) (filter changed (positions_from 0 s))) eqn:E.
        -- apply existsb_exists in E. destruct E as [y [Hy Ey]]. apply Nat.eqb_eq in Ey. subst y.
           apply filter_In in Hy. destruct Hy as [_ Hy]. unfold changed in Hy.
           destruct (String.get p s'); [|discriminate]. apply Ascii.eqb_eq in Hy. congruence.
        -- destruct (String.get p s) as [c|] eqn:Gs.
           ++ destruct (String.get p s') as [c'|] eqn:Gs'.
              ** destruct (H p c c' Gs Gs') as [->|[-> ->]]; auto. exfalso.
                 assert (Q : existsb (Nat.eqb p) (filter changed (positions_from 0 s)) = true).
                 { apply existsb_exists. exists p. rewrite Nat.eqb_refl. split; auto.
                   apply filter_In. rewrite positions_iff. split; auto. unfold changed. now rewrite Gs'. }
                 congruence.
              ** apply get_None_len in Gs'. rewrite L in Gs'. apply get_None_len in Gs'. congruence.
           ++ apply get_None_len in Gs. rewrite <- L in Gs. apply get_None_len in Gs. auto.
      * intros i Hi. apply filter_In in Hi. destruct Hi as [Hi _]. apply positions_iff in Hi.
        destruct (Nat.lt_ge_cases i (String.length s)) as [|Q]; auto.
        apply get_None_len in Q. congruence.
    + apply index_sets_iff, sublist_filter.
Qed.

Lemma replacements_first : forall s, hd_error (all_underscore_replacements s) = Some s.
Proof.
  intros s. unfold all_underscore_replacements. rewrite Nat.add_1_r. simpl.
  destruct (positions_from 0 s); reflexivity.
Qed.

(** ** Database tables *)

Lemma get_smap : forall f s p, String.get p (smap f s) = option_map f (String.get p s).
Proof. induction s; destruct p; simpl; auto. Qed.

Lemma variant_get : forall s s' p, space_variant s s' ->
  String.get p s' = String.get p s \/ (String.get p s = Some "_"%char /\ String.get p s' = Some " "%char).
Proof.
  intros s s' p [L H]. destruct (String.get p s) as [c|] eqn:E.
  - destruct (String.get p s') as [c'|] eqn:E'.
    + destruct (H p c c' E E') as [->|[-> ->]]; auto.
    + apply get_None_len in E'. rewrite L in E'. apply get_None_len in E'. congruence.
  - left. apply get_None_len. rewrite L. now apply get_None_len.
Qed.

Lemma variant_lower_inj : forall s a b, space_variant s a -> space_variant s b -> lower a = lower b -> a = b.
Proof.
  intros s a b Ha Hb E. apply get_ext. intros p.
  pose proof (f_equal (String.get p) E) as Q. unfold lower in Q. rewrite !get_smap in Q.
  destruct (variant_get s a p Ha) as [A|[A A']], (variant_get s b p Hb) as [B|[B B']]; try congruence.
  - rewrite A, B, B' in Q. discriminate.
  - rewrite A', B, A in Q. discriminate.
Qed.

Lemma variant_unspace : forall s a, has_char " " s = false -> space_variant s a -> unspace a = lower s.
Proof.
  intros s a Hs Ha. rewrite <- (unspace_nospace s Hs). apply get_ext. intros p.
  unfold unspace, lower. rewrite !get_smap.
  destruct (variant_get s a p Ha) as [A|[A A']]; [now rewrite A|]. now rewrite A, A'.
Qed.

Definition spaced (s : string) : string := smap (fun c => if Ascii.eqb c "_" then " "%char else c) s.

Lemma smap_smap : forall f g s, smap f (smap g s) = smap (fun c => f (g c)) s.
Proof. induction s; simpl; congruence. Qed.
Lemma smap_ext : forall f g, (forall c, f c = g c) -> forall s, smap f s = smap g s.
Proof. induction s; simpl; congruence. Qed.
Lemma smap_length : forall f s, String.length (smap f s) = String.length s.
Proof. induction s; simpl; congruence. Qed.

Lemma spaced_variant : forall s, space_variant s (spaced s).
Proof.
  intros s. split; [apply smap_length|]. intros p c c' Hc Hc'. unfold spaced in Hc'.
  rewrite get_smap, Hc in Hc'. simpl in Hc'. destruct (Ascii.eqb c "_") eqn:E.
  - apply Ascii.eqb_eq in E. right. split; congruence.
  - left. congruence.
Qed.

Lemma spaced_lower : forall s, lower (spaced s) = lower (pretty s).
Proof.
  intros s. unfold pretty. rewrite pretty_go_lower. unfold lower, spaced. rewrite !smap_smap.
  apply smap_ext. intros c. rewrite lower_underscore. destruct (Ascii.eqb c "_"); reflexivity.
Qed.

Lemma variant_refl : forall s, space_variant s s.
Proof. intros s. split; auto. intros p c c' H1 H2. left. congruence. Qed.

Lemma lower_unspace_eq : forall a b, lower a = lower b -> unspace a = unspace b.
Proof. intros a b E. unfold unspace. now rewrite E. Qed.

Lemma get_db_table_own : forall asked tables db others t,
  legal_names tables -> In t tables ->
  (forall n, In n db <-> In n (map (out_name asked tables) tables ++ others)%list) ->
  (forall n t', In n others -> In t' tables -> unspace n <> lower t') ->
  exists n, get_db_table db t = Ret (Some n) /\ lower n = lower (out_name asked tables t).
Proof.
  intros asked tables db others t L Ht P Ho.
  assert (Hsp : has_char " " t = false) by (now apply L).
  set (v := if use_pretty asked tables then spaced t else t).
  assert (Vv : space_variant t v).
  { unfold v. destruct (use_pretty asked tables); auto using spaced_variant, variant_refl. }
  assert (Lv : lower v = lower (out_name asked tables t)).
  { unfold v, out_name. destruct (use_pretty asked tables); auto using spaced_lower. }
  exists v. split; auto. unfold get_db_table.
  assert (F : filter (try_name db) (all_underscore_replacements t) = [v]).
  { apply find_one.
    - apply replacements_NoDup.
    - now apply replacements_iff.
    - apply mem_str_iff. rewrite Lv. apply in_map, P, in_or_app. left. now apply in_map.
    - intros y Hy Hp. apply replacements_iff in Hy. apply mem_str_iff, in_map_iff in Hp.
      destruct Hp as [n [En Hn]]. apply P, in_app_or in Hn. destruct Hn as [Hn|Hn].
      + apply in_map_iff in Hn. destruct Hn as [t' [<- Ht']].
        assert (t' = t).
        { pose proof (lower_unspace_eq _ _ En) as Q. rewrite out_name_unspace in Q by (now apply L).
          rewrite (variant_unspace t y Hsp Hy) in Q. eapply legal_inj; eauto. }
        subst t'. eapply variant_lower_inj; eauto. congruence.
      + exfalso. apply (Ho n t Hn Ht). rewrite (lower_unspace_eq _ _ En).
        now apply variant_unspace. }
  now rewrite F.
Qed.

(** ** What is found, and when it is refused *)

Lemma filter_nil_iff {A} (p : A -> bool) : forall l, filter p l = []%list <-> forall x, In x l -> p x = false.
Proof.
  induction l as [|a l IH]; simpl; [tauto|]. split.
  - destruct (p a) eqn:E; [discriminate|]. intros H x [<-|Hx]; auto. now apply IH.
  - intros H. rewrite (H a) by auto. apply IH. auto.
Qed.

Lemma filter_one_iff {A} (p : A -> bool) : forall l x, filter p l = [x]%list <->
  exists l1 l2, l = (l1 ++ x :: l2)%list /\ p x = true /\ forall y, In y (l1 ++ l2)%list -> p y = false.
Proof.
  induction l as [|a l IH]; intros x; simpl.
  - split; [discriminate|]. intros (l1 & l2 & E & _). destruct l1; discriminate.
  - destruct (p a) eqn:E.
    + split.
      * intros H. injection H as -> H. exists []%list, l. split; auto. split; auto. now apply filter_nil_iff.
      * intros (l1 & l2 & El & Hx & H). destruct l1 as [|b l1].
        -- injection El as -> ->. f_equal. now apply filter_nil_iff.
        -- injection El as -> ->. rewrite (H b) in E by (simpl; auto). discriminate.
    + rewrite IH. split.
      * intros (l1 & l2 & -> & Hx & H). exists (a :: l1)%list, l2. split; auto. split; auto. intros y [<-|Hy]; auto.
      * intros (l1 & l2 & El & Hx & H). destruct l1 as [|b l1].
        -- injection El as -> ->. congruence.
        -- injection El as -> ->. exists l1, l2. split; auto. split; auto. intros y Hy. apply H. simpl. auto.
Qed.

(** The variant of [t] with spaces where [n] has them. *)
Fixpoint spaces_as (n t : string) : string :=
  match n, t with
  | String c n', String d t' => String (if Ascii.eqb c " " then " "%char else d) (spaces_as n' t')
  | _, _ => t
  end.

Lemma spaces_as_spec : forall n t, has_char " " t = false -> unspace n = lower t ->
  space_variant t (spaces_as n t) /\ lower (spaces_as n t) = lower n.
Proof.
  induction n as [|c n IH]; intros [|d t] Hs H; try discriminate.
  - split; [apply variant_refl | reflexivity].
  - cbn [has_char] in Hs. apply orb_false_iff in Hs as [Hd Hs]. unfold unspace, lower in H. cbn [smap] in H. injection H as Hc H.
    destruct (IH t Hs H) as [[V1 V2] L]. cbn [spaces_as]. split.
    + split; [cbn [String.length]; congruence |]. intros [|p] a b Ha Hb; cbn [String.get] in Ha, Hb; [|eauto].
      injection Ha as <-. injection Hb as <-. destruct (Ascii.eqb c " ") eqn:E; auto. right. split; auto.
      apply Ascii.eqb_eq in E. subst c. simpl in Hc. symmetry in Hc. apply Ascii.eqb_eq. rewrite <- lower_underscore. now apply Ascii.eqb_eq.
    + unfold lower in *. cbn [smap]. rewrite L. f_equal. destruct (Ascii.eqb c " ") eqn:E.
      * apply Ascii.eqb_eq in E. now subst c.
      * destruct (Ascii.eqb (lower_char c) " ") eqn:E'; [|congruence]. exfalso. apply Ascii.eqb_eq in E'.
        assert (forall x, lower_char x = " "%char -> x = " "%char) as K.
        { intros [[] [] [] [] [] [] [] []]; vm_compute; congruence. }
        apply K in E'. subst c. discriminate.
Qed.

Lemma db_table_cases : forall db t, has_char " " t = false ->
  (get_db_table db t = Ret None <-> forall n, In n db -> unspace n <> lower t) /\
  (forall v, get_db_table db t = Ret (Some v) -> exists n, In n db /\ lower v = lower n /\ unspace n = lower t) /\
  (get_db_table db t = Raise <-> exists n n', In n db /\ In n' db /\ lower n <> lower n' /\ unspace n = lower t /\ unspace n' = lower t).
Proof.
  intros db t Hs. unfold get_db_table. set (l := filter (try_name db) (all_underscore_replacements t)).
  assert (NoDup l) as Hn by (apply NoDup_filter, replacements_NoDup).
  assert (forall v, In v l <-> space_variant t v /\ exists n, In n db /\ lower n = lower v) as Hl.
  { intros v. unfold l. rewrite filter_In, replacements_iff. unfold try_name. rewrite mem_str_iff, in_map_iff. split.
    - intros [A (n & B & C)]. split; eauto.
    - intros [A (n & B & C)]. split; eauto. }
  assert (forall v, In v l -> exists n, In n db /\ lower v = lower n /\ unspace n = lower t) as Hv.
  { intros v H. apply Hl in H as [A (n & B & C)]. exists n. split; auto. split; auto. rewrite (lower_unspace_eq _ _ C). now apply variant_unspace. }
  assert (forall n, In n db -> unspace n = lower t -> exists v, In v l /\ lower v = lower n) as Hw.
  { intros n H E. destruct (spaces_as_spec n t Hs E) as [V L]. exists (spaces_as n t). split; auto. apply Hl. split; auto. exists n. auto. }
  split; [|split].
  - split.
    + intros H n Hin E. destruct (Hw n Hin E) as (v & A & _). destruct l as [|a [|b l']]; [destruct A|discriminate|discriminate].
    + intros H. destruct l as [|a l']; auto. exfalso. destruct (Hv a) as (n & A & _ & B); [simpl; auto|]. exact (H n A B).
  - intros v H. destruct l as [|a [|b l']]; try discriminate. injection H as <-. apply Hv. simpl. auto.
  - split.
    + intros H. destruct l as [|a [|b l']]; try discriminate.
      destruct (Hv a) as (n & A & A1 & A2); [simpl; auto|]. destruct (Hv b) as (n' & B & B1 & B2); [simpl; auto|].
      exists n, n'. repeat split; auto. intros E. assert (a = b) as ->.
      { apply (variant_lower_inj t); [apply Hl; simpl; auto|apply Hl; simpl; auto|congruence]. }
      inversion Hn as [|? ? X _]; subst. apply X. simpl. auto.
    + intros (n & n' & A & A' & D & E & E'). destruct (Hw n A E) as (v & V & Lv). destruct (Hw n' A' E') as (v' & V' & Lv').
      assert (v <> v') as Hne by congruence. destruct l as [|a [|b l']]; auto; [destruct V|]. exfalso. destruct V as [<-|[]], V' as [<-|[]]. auto.
Qed.

Lemma lookup_cases : forall listing sheets keys t,
  (get_file_path listing t = Ret None <-> forall n, In (n, true) listing -> unspace n <> lower t ++ ".csv") /\
  (forall n, get_file_path listing t = Ret (Some n) <-> exists l1 l2, listing = (l1 ++ (n, true) :: l2)%list /\ unspace n = lower t ++ ".csv" /\
     forall n', In (n', true) (l1 ++ l2)%list -> unspace n' <> lower t ++ ".csv") /\
  (get_sheet sheets t = Ret None <-> forall n, In n sheets -> stake 30 (unspace n) <> stake 30 (lower t)) /\
  (forall n, get_sheet sheets t = Ret (Some n) <-> exists l1 l2, sheets = (l1 ++ n :: l2)%list /\ stake 30 (unspace n) = stake 30 (lower t) /\
     forall n', In n' (l1 ++ l2)%list -> stake 30 (unspace n') <> stake 30 (lower t)) /\
  (get_json_key keys t = Ret None <-> forall n, In n keys -> unspace n <> lower t) /\
  (forall n, get_json_key keys t = Ret (Some n) <-> exists l1 l2, keys = (l1 ++ n :: l2)%list /\ unspace n = lower t /\
     forall n', In n' (l1 ++ l2)%list -> unspace n' <> lower t).
Proof.
  intros listing sheets keys t.
  assert (forall (p : string -> bool) l (X : string -> string -> Prop), (forall n, p n = true <-> X n t) ->
    (match filter p l with []%list => Ret None | [s]%list => Ret (Some s) | _ => Raise end = Ret None <-> forall n, In n l -> ~ X n t) /\
    (forall n, match filter p l with []%list => Ret None | [s]%list => Ret (Some s) | _ => Raise end = Ret (Some n) <->
       exists l1 l2, l = (l1 ++ n :: l2)%list /\ X n t /\ forall n', In n' (l1 ++ l2)%list -> ~ X n' t)) as G.
  { intros p l X HX. assert (forall n, p n = false <-> ~ X n t) as HN.
    { intros n. rewrite <- HX. destruct (p n); split; congruence. }
    split.
    - transitivity (filter p l = []%list); [destruct (filter p l) as [|a [|b l']]; split; congruence|]. rewrite filter_nil_iff.
      split; intros H n Hn; apply HN; auto.
    - intros n. transitivity (filter p l = [n]%list); [destruct (filter p l) as [|a [|b l']]; split; try discriminate; congruence|]. rewrite filter_one_iff.
      split; intros (l1 & l2 & A & B & C); exists l1, l2; (split; [exact A|]); (split; [now apply HX|]); intros y Hy; apply HN; auto. }
  split; [|split].
  - unfold get_file_path. transitivity (filter (fun e : string * bool => snd e && csv_match t (fst e)) listing = []%list);
      [destruct (filter _ listing) as [|a [|b l']]; split; congruence|]. rewrite filter_nil_iff. split.
    + intros H n Hn E. specialize (H (n, true) Hn). cbn [fst snd andb] in H. unfold csv_match in H. apply String.eqb_neq in H. auto.
    + intros H [n b] Hn. cbn [fst snd]. destruct b; [|reflexivity]. cbn [andb]. unfold csv_match. apply String.eqb_neq. auto.
  - intros n. unfold get_file_path. transitivity (filter (fun e : string * bool => snd e && csv_match t (fst e)) listing = [(n, true)]%list).
    + destruct (filter (fun e : string * bool => snd e && csv_match t (fst e)) listing) as [|[a b] [|c l']] eqn:E; split; try discriminate.
      * cbn [fst]. intros H. injection H as ->. assert (In (n, b) (filter (fun e : string * bool => snd e && csv_match t (fst e)) listing)) as Hin by (rewrite E; now left).
        apply filter_In in Hin as [_ Hb]. cbn [snd] in Hb. now destruct b.
      * intros H. injection H as -> ->. reflexivity.
    + rewrite filter_one_iff. split; intros (l1 & l2 & A & B & C); exists l1, l2; (split; [exact A|]).
      * cbn [fst snd andb] in B. split; [now apply String.eqb_eq in B|]. intros n' Hn' E. specialize (C (n', true) Hn'). cbn [fst snd andb] in C. apply String.eqb_neq in C. auto.
      * split; [cbn [fst snd andb]; now apply String.eqb_eq|]. intros [n' b] Hn'. cbn [fst snd]. destruct b; [|reflexivity]. apply String.eqb_neq. auto.
  - destruct (G (sheet_match t) sheets (fun n t => stake 30 (unspace n) = stake 30 (lower t))) as [A B].
    { intros n. unfold sheet_match. rewrite String.eqb_eq. unfold longest_sheet. split; congruence. }
    destruct (G (json_match t) keys (fun n t => unspace n = lower t)) as [C D].
    { intros n. unfold json_match. apply String.eqb_eq. }
    split; [exact A|]. split; [exact B|]. split; [exact C|exact D].
Qed.

(** ** Overwriting *)

Lemma write_directory_plain : forall existing tables files f,
  write_directory existing false false tables = Ret files -> In f files -> ~ In f existing.
Proof.
  intros existing tables files f H Hf. unfold write_directory in H. simpl in H.
  destruct (existsb (fun t => mem_str (t ++ ".csv") existing) tables) eqn:E; [discriminate|].
  injection H as <-. apply in_map_iff in Hf. destruct Hf as [t [<- Ht]].
  intros Hin. assert (Q : existsb (fun t => mem_str (t ++ ".csv") existing) tables = true).
  { apply existsb_exists. exists t. split; auto. apply mem_str_iff. exact Hin. }
  congruence.
Qed.

(** ** Postgres names *)

Definition pg_char (c : ascii) : ascii := if is_alnum (lower_char c) then lower_char c else "_"%char.
(** Lower-case letters, digits and underscore. *)
Definition pg_letter (c : ascii) : bool :=
  let n := N_of_ascii c in (((97 <=? n) && (n <=? 122)) || ((48 <=? n) && (n <=? 57)) || (n =? 95))%N.

Lemma pg_char_letter : forall c, pg_letter (pg_char c) = true.
Proof. intros c. exact (char_forall (fun c => pg_letter (pg_char c)) ltac:(vm_compute; reflexivity) c). Qed.

Lemma pg_char_fix : forall c, pg_letter c = true -> pg_char c = c.
Proof.
  intros c H. char_case c (fun c => implb (pg_letter c) (Ascii.eqb (pg_char c) c)).
  rewrite H in K. now apply Ascii.eqb_eq.
Qed.

Lemma pg_name_eq : forall s, pg_name s =
  match s with
  | EmptyString => EmptyString
  | String c s => String (if is_digit c then "_"%char else pg_char c) (smap pg_char s)
  end.
Proof.
  intros [|c s]; [reflexivity|]. unfold pg_name, lower. simpl. f_equal.
  - char_case c (fun c => Ascii.eqb
      (if is_digit (if is_alnum (lower_char c) then lower_char c else "_") then "_"%char
       else if is_alnum (lower_char c) then lower_char c else "_"%char)
      (if is_digit c then "_"%char else pg_char c)). now apply Ascii.eqb_eq.
  - rewrite smap_smap. reflexivity.
Qed.

Lemma pg_name_get0 : forall s c, String.get 0 s = Some c ->
  String.get 0 (pg_name s) = Some (if is_digit c then "_"%char else pg_char c).
Proof. intros [|c s] c' H; simpl in H; [discriminate|]. injection H as ->. now rewrite pg_name_eq. Qed.

Lemma pg_name_getS : forall s p c, String.get (S p) s = Some c ->
  String.get (S p) (pg_name s) = Some (pg_char c).
Proof. intros [|c s] p c' H; simpl in H; [discriminate|]. rewrite pg_name_eq. simpl. now rewrite get_smap, H. Qed.

Lemma pg_name_length : forall s, String.length (pg_name s) = String.length s.
Proof. intros s. rewrite pg_name_eq. destruct s; simpl; auto. now rewrite smap_length. Qed.

Lemma pg_name_letters : forall s p c, String.get p (pg_name s) = Some c ->
  pg_letter c = true /\ (p = 0 -> is_digit c = false).
Proof.
  intros s p c H. destruct (get_Some_lt s p) as [c0 E].
  { rewrite <- pg_name_length. destruct (Nat.lt_ge_cases p (String.length (pg_name s))) as [|Q]; auto.
    apply get_None_len in Q. congruence. }
  destruct p as [|p].
  - rewrite (pg_name_get0 s c0 E) in H. injection H as <-. split.
    + destruct (is_digit c0); [reflexivity|apply pg_char_letter].
    + intros _. char_case c0 (fun c => negb (is_digit (if is_digit c then "_"%char else pg_char c))).
      now apply negb_true_iff in K.
  - rewrite (pg_name_getS s p c0 E) in H. injection H as <-. split; [apply pg_char_letter|discriminate].
Qed.

Lemma pg_name_fixed : forall s, pg_name (pg_name s) = pg_name s.
Proof.
  intros s. apply get_ext. intros p. destruct (String.get p (pg_name s)) as [c|] eqn:E.
  - destruct (pg_name_letters s p c E) as [H1 H2]. destruct p as [|p].
    + rewrite (pg_name_get0 _ _ E). rewrite H2 by auto. now rewrite pg_char_fix.
    + rewrite (pg_name_getS _ _ _ E). now rewrite pg_char_fix.
  - apply get_None_len. rewrite pg_name_length. now apply get_None_len.
Qed.

Lemma pg_compatible_inj : forall sch t fields a b, pg_compatible sch = true ->
  In (t, fields) sch -> NoDup fields -> In a fields -> In b fields -> pg_name a = pg_name b -> a = b.
Proof.
  intros sch t fields a b H Hin Hnd Ha Hb E. unfold pg_compatible in H.
  rewrite forallb_forall in H. specialize (H _ Hin). simpl in H. rewrite !andb_true_iff in H.
  destruct H as [[_ H] _].
  assert (D : distinct_b (map pg_name fields) = true).
  { unfold distinct_b. rewrite map_length, Nat.eqb_sym. exact H. }
  apply distinct_b_iff in D. now apply (NoDup_map_inj_in pg_name fields).
Qed.

Lemma pg_plain : forall s, (forall p c, String.get p s = Some c -> is_alnum c = true \/ c = "_"%char) ->
  (forall c, String.get 0 s = Some c -> is_digit c = false) -> pg_name s = lower s.
Proof.
  intros s H H0. apply get_ext. intros p. unfold lower. rewrite get_smap.
  destruct (String.get p s) as [c|] eqn:E.
  - assert (Q : pg_char c = lower_char c).
    { destruct (H p c E) as [A| ->]; [|reflexivity].
      char_case c (fun c => implb (is_alnum c) (Ascii.eqb (pg_char c) (lower_char c))).
      rewrite A in K. now apply Ascii.eqb_eq. }
    destruct p.
    + rewrite (pg_name_get0 _ _ E), (H0 _ E). simpl. now rewrite Q.
    + rewrite (pg_name_getS _ _ _ E). simpl. now rewrite Q.
  - simpl. apply get_None_len. rewrite pg_name_length. now apply get_None_len.
Qed.

(** ** More about the look-ups *)

Lemma get_file_path_match : forall listing t f, get_file_path listing t = Ret (Some f) -> csv_match t f = true.
Proof.
  intros listing t f H. unfold get_file_path in H.
  destruct (filter (fun e => snd e && csv_match t (fst e)) listing) as [|e [|? ?]] eqn:E; try discriminate.
  injection H as <-. assert (Q : In e (filter (fun e => snd e && csv_match t (fst e)) listing)).
  { rewrite E. simpl. auto. }
  apply filter_In in Q. destruct Q as [_ Q]. now apply andb_true_iff in Q.
Qed.

Lemma get_sheet_match : forall sheets t s, get_sheet sheets t = Ret (Some s) -> sheet_match t s = true.
Proof.
  intros sheets t s H. unfold get_sheet in H.
  destruct (filter (sheet_match t) sheets) as [|e [|? ?]] eqn:E; try discriminate.
  injection H as <-. assert (Q : In e (filter (sheet_match t) sheets)) by (rewrite E; simpl; auto).
  now apply filter_In in Q.
Qed.

Lemma legal_names_perm : forall l l', legal_names l -> Permutation l l' -> legal_names l'.
Proof.
  intros l l' [H1 H2] P. split.
  - eapply Permutation_NoDup; [apply Permutation_map; exact P|exact H1].
  - intros t Ht. apply H2. eapply Permutation_in; [apply Permutation_sym; exact P|exact Ht].
Qed.

Lemma write_directory_similar : forall decl existing allow asked files f,
  decl_ok decl = true ->
  (forall g t, In g existing -> In t (map fst decl) -> unspace g <> lower t ++ ".csv") ->
  write_directory existing allow asked (map fst decl) = Ret files -> In f files -> ~ In f existing.
Proof.
  intros decl existing allow asked files f Hd Hs W Hf Hin. unfold write_directory in W.
  destruct (negb allow && _); [discriminate|]. injection W as <-.
  apply in_map_iff in Hf. destruct Hf as [t [<- Ht]].
  apply (Hs _ t Hin Ht). apply String.eqb_eq.
  change (csv_match t (csv_name asked (map fst decl) t) = true).
  now apply csv_match_own; auto using decl_ok_legal.
Qed.

(** ** Order of the candidate names *)

Fixpoint count_char (c : ascii) (s : string) : nat :=
  match s with
  | EmptyString => 0
  | String c' s' => (if Ascii.eqb c' c then 1 else 0) + count_char c s'
  end.

Lemma count_app : forall c a b, count_char c (a ++ b) = count_char c a + count_char c b.
Proof. induction a; simpl; intros; auto. rewrite IHa. lia. Qed.

Lemma count_blank : forall s i, String.get i s = Some "_"%char ->
  count_char " " (blank_at s i) = S (count_char " " s).
Proof.
  unfold blank_at. induction s as [|c s IH]; intros [|i] H; simpl in H; try discriminate.
  - injection H as ->. reflexivity.
  - simpl. rewrite IH by auto. lia.
Qed.

Lemma count_blanks : forall ixs s, NoDup ixs -> (forall i, In i ixs -> String.get i s = Some "_"%char) ->
  count_char " " (fold_left blank_at ixs s) = List.length ixs + count_char " " s.
Proof.
  induction ixs as [|i ixs IH]; simpl; intros s Hnd H; auto. inversion Hnd; subst.
  rewrite IH; auto.
  - rewrite count_blank by auto. lia.
  - intros j Hj. rewrite get_blank.
    + destruct (Nat.eqb_spec j i); [subst; contradiction|auto].
    + destruct (Nat.lt_ge_cases i (String.length s)) as [|Q]; auto.
      apply get_None_len in Q. rewrite H in Q; [discriminate|auto].
Qed.

Lemma sublist_NoDup {A} : forall (l l' : list A), sublist l l' -> NoDup l' -> NoDup l.
Proof.
  induction 1; intros N; auto; inversion N; subst; auto. constructor; auto.
  intros Q. eapply sublist_In in Q; eauto.
Qed.

Lemma nth_flat_map_sorted {A} (f : nat -> list A) (size : A -> nat) :
  (forall r x, In x (f r) -> size x = r) ->
  forall n start i j a b, nth_error (flat_map f (seq start n)) i = Some a ->
    nth_error (flat_map f (seq start n)) j = Some b -> i <= j -> size a <= size b.
Proof.
  intros Hs. induction n as [|n IH]; intros start i j a b Ha Hb Hij; simpl in *.
  - destruct i; discriminate.
  - destruct (Nat.lt_ge_cases i (List.length (f start))) as [Hi|Hi].
    + rewrite nth_error_app1 in Ha by auto. apply nth_error_In, Hs in Ha. subst start.
      assert (B : In b (f (size a) ++ flat_map f (seq (S (size a)) n))%list) by (eapply nth_error_In; eauto).
      apply in_app_or in B. destruct B as [B|B].
      * apply Hs in B. lia.
      * apply in_flat_map in B. destruct B as [r [Hr B]]. apply in_seq in Hr. apply Hs in B. lia.
    + rewrite nth_error_app2 in Ha, Hb by lia.
      eapply (IH (S start)); [exact Ha|exact Hb|lia].
Qed.

Lemma replacements_sorted : forall s i j a b,
  nth_error (all_underscore_replacements s) i = Some a ->
  nth_error (all_underscore_replacements s) j = Some b -> i <= j -> count_char " " a <= count_char " " b.
Proof.
  intros s i j a b Ha Hb Hij. unfold all_underscore_replacements in *. fold (index_sets s) in *.
  rewrite nth_error_map in Ha, Hb.
  destruct (nth_error (index_sets s) i) as [x|] eqn:Ex; [|discriminate].
  destruct (nth_error (index_sets s) j) as [y|] eqn:Ey; [|discriminate].
  injection Ha as <-. injection Hb as <-.
  assert (G : forall z k, nth_error (index_sets s) k = Some z ->
    count_char " " (fold_left blank_at z s) = List.length z + count_char " " s).
  { intros z k Hz. apply nth_error_In, index_sets_iff in Hz. apply count_blanks.
    - eapply sublist_NoDup; [exact Hz|apply NoDup_positions].
    - intros q Hq. now apply (sublist_In _ _ _ Hz), positions_iff in Hq. }
  rewrite (G x i Ex), (G y j Ey). apply Nat.add_le_mono_r.
  unfold index_sets in *.
  eapply (nth_flat_map_sorted (combinations (positions_from 0 s)) (@List.length nat)); eauto.
  intros r z Hz. now apply combinations_iff in Hz.
Qed.

(** ** Postgres characters as numbers *)

Lemma range_N : forall a b n, ((a <=? n) && (n <=? b))%N = true <->
  N.to_nat a <= N.to_nat n <= N.to_nat b.
Proof. intros. rewrite andb_true_iff, !N.leb_le. lia. Qed.

Lemma is_digit_iff : forall c, is_digit c = true <-> 48 <= nat_of_ascii c <= 57.
Proof. intros. unfold is_digit. rewrite range_N. reflexivity. Qed.

Lemma pg_name_chars : forall s p c, String.get p (pg_name s) = Some c ->
  let n := nat_of_ascii c in
  (97 <= n <= 122 \/ 48 <= n <= 57 \/ n = 95) /\ (p = 0 -> ~ 48 <= n <= 57).
Proof.
  intros s p c H n. destruct (pg_name_letters s p c H) as [H1 H2]. split.
  - unfold pg_letter in H1. rewrite !orb_true_iff, !range_N, N.eqb_eq in H1. unfold n, nat_of_ascii.
    simpl N.to_nat in H1. destruct H1 as [[H1|H1]|H1]; auto. right. right. rewrite H1. reflexivity.
  - intros Hp Hn. apply is_digit_iff in Hn. rewrite H2 in Hn; [discriminate|auto].
Qed.

Lemma pg_name_each : forall s p c, String.get p s = Some c ->
  exists c', String.get p (pg_name s) = Some c' /\
  let n := nat_of_ascii c in
  (97 <= n <= 122 -> c' = c) /\
  (65 <= n <= 90 -> nat_of_ascii c' = n + 32) /\
  (48 <= n <= 57 -> p <> 0 -> c' = c) /\
  (48 <= n <= 57 -> p = 0 -> c' = "_"%char) /\
  (~ 97 <= n <= 122 -> ~ 65 <= n <= 90 -> ~ 48 <= n <= 57 -> c' = "_"%char).
Proof.
  intros s p c H.
  set (chk := fun c' c (first : bool) =>
    let n := nat_of_ascii c in
    let r a b := Nat.leb a n && Nat.leb n b in
    implb (r 97 122) (Ascii.eqb c' c) &&
    implb (r 65 90) (Nat.eqb (nat_of_ascii c') (n + 32)) &&
    implb (r 48 57 && negb first) (Ascii.eqb c' c) &&
    implb (r 48 57 && first) (Ascii.eqb c' "_") &&
    implb (negb (r 97 122) && negb (r 65 90) && negb (r 48 57)) (Ascii.eqb c' "_")).
  assert (G : forall c', String.get p (pg_name s) = Some c' -> chk c' c (Nat.eqb p 0) = true ->
    exists c', String.get p (pg_name s) = Some c' /\
    let n := nat_of_ascii c in
    (97 <= n <= 122 -> c' = c) /\
    (65 <= n <= 90 -> nat_of_ascii c' = n + 32) /\
    (48 <= n <= 57 -> p <> 0 -> c' = c) /\
    (48 <= n <= 57 -> p = 0 -> c' = "_"%char) /\
    (~ 97 <= n <= 122 -> ~ 65 <= n <= 90 -> ~ 48 <= n <= 57 -> c' = "_"%char)).
  { intros c' E K. exists c'. split; auto. intros n. unfold chk in K. fold n in K. cbv zeta in K.
    assert (R : forall a b, (Nat.leb a n && Nat.leb n b) = true <-> a <= n <= b).
    { intros. rewrite andb_true_iff, !Nat.leb_le. tauto. }
    assert (R' : forall a b, ~ a <= n <= b -> (Nat.leb a n && Nat.leb n b) = false).
    { intros a b Q. apply not_true_iff_false. now rewrite R. }
    rewrite !andb_true_iff in K. destruct K as [[[[K1 K2] K3] K4] K5].
    split; [|split; [|split; [|split]]].
    - intros Q. apply R in Q. rewrite Q in K1. now apply Ascii.eqb_eq.
    - intros Q. apply R in Q. rewrite Q in K2. now apply Nat.eqb_eq.
    - intros Q Hp. apply R in Q. apply Nat.eqb_neq in Hp. rewrite Q, Hp in K3. now apply Ascii.eqb_eq.
    - intros Q Hp. apply R in Q. apply Nat.eqb_eq in Hp. rewrite Q, Hp in K4. now apply Ascii.eqb_eq.
    - intros Q1 Q2 Q3. rewrite (R' _ _ Q1), (R' _ _ Q2), (R' _ _ Q3) in K5. now apply Ascii.eqb_eq. }
  destruct p as [|p].
  - apply (G _ (pg_name_get0 _ _ H)).
    exact (char_forall (fun c => chk (if is_digit c then "_"%char else pg_char c) c true)
             ltac:(vm_compute; reflexivity) c).
  - apply (G _ (pg_name_getS _ _ _ H)).
    exact (char_forall (fun c => chk (pg_char c) c false) ltac:(vm_compute; reflexivity) c).
Qed.

Lemma pg_compatible_table : forall sch t fields,
  pg_compatible sch = true -> In (t, fields) sch -> pg_name t = t.
Proof.
  intros sch t fields H Hin. unfold pg_compatible in H. rewrite forallb_forall in H. specialize (H _ Hin).
  rewrite !andb_true_iff in H. destruct H as [[H _] _]. now apply String.eqb_eq.
Qed.

Lemma pg_compatible_reserved : forall sch t fields x,
  pg_compatible sch = true -> In (t, fields) sch -> In x fields ->
  (forall p c, String.get p x = Some c -> is_alnum c = true \/ c = "_"%char) ->
  ~ In (pg_name x) pg_reserved.
Proof.
  intros sch t fields x H Hin Hx Hc Hr.
  assert (D : forall c, String.get 0 x = Some c -> is_digit c = false).
  { intros c E. destruct (is_digit c) eqn:Dc; auto. exfalso.
    assert (Q : String.get 0 (pg_name x) = Some "_"%char) by (now rewrite (pg_name_get0 _ _ E), Dc).
    assert (F : forallb (fun w => negb (starts_with_char "_" w)) pg_reserved = true) by reflexivity.
    rewrite forallb_forall in F. specialize (F _ Hr).
    destruct (pg_name x) as [|c0 w]; [discriminate|]. simpl in Q. injection Q as ->. discriminate. }
  rewrite (pg_plain x Hc D) in Hr.
  unfold pg_compatible in H. rewrite forallb_forall in H. specialize (H _ Hin).
  rewrite !andb_true_iff in H. destruct H as [_ H]. rewrite forallb_forall in H. specialize (H _ Hx).
  apply negb_true_iff, mem_str_false in H. contradiction.
Qed.

(** Pretty names are used only if they tell the tables apart. *)
Section Count.
  Lemma set_of_snoc : forall l x, set_of String.eqb (l ++ [x])%list = sadd String.eqb (set_of String.eqb l) x.
  Proof. intros l x. unfold set_of. now rewrite fold_left_app. Qed.

  Lemma smem_set_str : forall l x, smem String.eqb (set_of String.eqb l) x = true <-> In x l.
  Proof.
    intros l x. induction l as [| y l IH] using rev_ind; [simpl; split; [discriminate | tauto] |].
    rewrite set_of_snoc, in_app_iff, <- IH. unfold sadd. destruct (smem String.eqb (set_of String.eqb l) y) eqn:E.
    - split; auto. intros [H | [<- | []]]; auto.
    - unfold smem. rewrite existsb_app. fold (smem String.eqb (set_of String.eqb l) x). rewrite orb_true_iff. simpl.
      rewrite orb_false_r, String.eqb_eq. tauto.
  Qed.

  Lemma set_of_count_str : forall l, List.length (set_of String.eqb l) <= List.length l /\
    (List.length (set_of String.eqb l) = List.length l <-> NoDup l).
  Proof.
    intros l. induction l as [| x l [IH1 IH2]] using rev_ind; [split; auto; split; auto; constructor |].
    rewrite set_of_snoc, app_length. simpl. unfold sadd. destruct (smem String.eqb (set_of String.eqb l) x) eqn:E.
    - apply smem_set_str in E. split; [lia |]. split; [lia |]. intros H. exfalso. apply (NoDup_app_disj _ _ x H E). now left.
    - rewrite app_length. simpl. split; [lia |]. split.
      + intros H. apply NoDup_app_intro; [apply IH2; lia | constructor; [tauto | constructor] |].
        intros y Hy [<- | []]. apply smem_set_str in Hy. congruence.
      + intros H. apply NoDup_app_l in H. apply IH2 in H. lia.
  Qed.
End Count.

Lemma out_names_differ : forall asked tables, NoDup tables -> NoDup (map (out_name asked tables) tables).
Proof.
  intros asked tables H. destruct (use_pretty asked tables) eqn:E.
  - rewrite (map_ext _ pretty) by (intros; unfold out_name; now rewrite E).
    unfold use_pretty in E. apply andb_prop in E as [_ E]. apply Nat.eqb_eq in E.
    apply set_of_count_str. rewrite <- E, map_length. now apply set_of_count_str.
  - rewrite (map_ext _ (fun t => t)) by (intros; unfold out_name; now rewrite E). now rewrite map_id.
Qed.
