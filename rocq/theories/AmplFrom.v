(** * Facts about copy_from_ampl_variables. *)
From Coq Require Import ZArith Bool List String Arith Lia.
From Verif Require Import PyVal PyDict PyDictFacts ListFacts Data FindTypes FindTypesFacts FK Obj ObjFacts ObjMore ObjLive Factory FactoryFacts GraphFacts InfIO Json ObjRows
  Csv CsvTrip Frames FramesFacts FramesTrip AmplData.
Import ListNotations.
Local Open Scope string_scope.
Local Open Scope list_scope.

(** ** Writing into the result *)

Section Write.
  Variable dv : defaults.
  Variable t : string.
  Variable ts : tschema.
  Hypothesis Hn : NoDup (tdf ts).

  Definition has (s : ktable) (k : pkey) : Prop := dmem pkey_eqb (k_rows s) k = true.

  (** The cell at a key and a field: what [t[k][f]] gives. *)
  Definition cell (s : ktable) (k : pkey) (f : string) : option value :=
    match dget pkey_eqb (k_rows s) k with
    | Some (RoRow _ c) => cell_at ts c f
    | Some _ => None
    | None => Some (cell_default dv t f)
    end.

  Definition open_row (r : rowobj) : Prop := match r with RoRow fz _ | RoFree fz _ => fz = false | RoRaw _ => False end.

  Definition fine (s : ktable) : Prop :=
    k_frozen s = false /\ ktable_ok ts s /\ forall k r, dget pkey_eqb (k_rows s) k = Some r -> open_row r.

  Lemma fine_empty : fine (mkK false []).
  Proof. split; auto. split; [split; [constructor | intros ? ? []] | discriminate]. Qed.

  Lemma has_dec : forall s k, has s k \/ dget pkey_eqb (k_rows s) k = None.
  Proof. intros s k. unfold has, dmem. destruct (dget pkey_eqb (k_rows s) k); auto. Qed.

  Lemma touch : forall s k, fine s -> key_ok ts k = true ->
    exists s', fst (k_getitem dv t ts s k) = s' /\ fine s' /\ (forall k', has s' k' <-> has s k' \/ pkey_eqb k k' = true) /\
      (forall k' f, In f (tdf ts) -> cell s' k' f = cell s k' f).
  Proof.
    intros s k (Hz & Hok & Ho) Hk. destruct (has_dec s k) as [H | H].
    - unfold has, dmem in H. destruct (dget pkey_eqb (k_rows s) k) as [r |] eqn:E; [| discriminate].
      rewrite (present_key dv t ts s k r E). exists s. split; auto. split; [split; auto |]. split; auto.
      intros k'. split; auto. intros [X | X]; auto. unfold has, dmem. rewrite <- (dget_cong pkey_eqb pkey_eqb_sym pkey_eqb_trans _ _ _ X). now rewrite E.
    - destruct (missing_key dv t ts Hn s k Hz H Hk) as (r & Hd & E).
      pose proof (k_getitem_ok dv t ts Hn s k Hok) as Hok'. rewrite E in *. cbn [fst] in *. eexists. split; [reflexivity |].
      assert (forall k', dget pkey_eqb (k_rows s ++ [(k, r)]) k' = if pkey_eqb k k' then Some r else dget pkey_eqb (k_rows s) k') as G.
      { intros k'. rewrite <- (dset_absent pkey_eqb (k_rows s) k r H). destruct (pkey_eqb k k') eqn:X.
        - now apply (dget_dset_eq pkey_eqb pkey_eqb_refl pkey_eqb_sym pkey_eqb_trans).
        - now apply (dget_dset_other pkey_eqb pkey_eqb_sym pkey_eqb_trans). }
      split; [split; [auto | split; [auto |]] | split].
      + cbn [k_rows]. intros k' r' X. rewrite G in X. destruct (pkey_eqb k k'); [| eauto]. injection X as <-. destruct r; simpl in *; tauto.
      + intros k'. unfold has, dmem. cbn [k_rows]. rewrite G. destruct (pkey_eqb k k'); [split; auto | split; auto; intros [X | X]; auto; discriminate].
      + intros k' f Hf. unfold cell. cbn [k_rows]. rewrite G. destruct (pkey_eqb k k') eqn:X; auto.
        rewrite <- (dget_cong pkey_eqb pkey_eqb_sym pkey_eqb_trans _ _ _ X), H. unfold default_row in Hd. destruct r as [fz c | fz l | l].
        * destruct Hd as (_ & _ & _ & Hd). rewrite Hd by auto. reflexivity.
        * destruct Hd as (_ & Hd & _). rewrite Hd in Hf. contradiction.
        * contradiction.
  Qed.

  Lemma touched_row : forall s k f v, kstep dv t ts s (KRowSet k f v) = kstep dv t ts (fst (k_getitem dv t ts s k)) (KRowSet k f v) \/ dget pkey_eqb (k_rows (fst (k_getitem dv t ts s k))) k = None.
  Proof.
    intros s k f v. cbn [kstep]. unfold on_row. destruct (k_getitem dv t ts s k) as [s1 o] eqn:E. cbn [fst].
    destruct (dget pkey_eqb (k_rows s1) k) as [r |] eqn:G; auto. left. rewrite (present_key dv t ts s1 k r G).
    assert (o = Some r) as -> by (unfold k_getitem in E; injection E as <- <-; exact G). reflexivity.
  Qed.

  Lemma write_cell : forall s k f v, fine s -> key_ok ts k = true -> In f (tdf ts) ->
    exists s', write dv t ts f s (k, Some v) = Some s' /\ fine s' /\ (forall k', has s' k' <-> has s k' \/ pkey_eqb k k' = true) /\
      (forall k' g, In g (tdf ts) -> cell s' k' g = if pkey_eqb k k' && String.eqb f g then Some v else cell s k' g).
  Proof.
    intros s k f v F Hk Hf. destruct (touch s k F Hk) as (s1 & E & F1 & H1 & C1).
    assert (has s1 k) as Hs1 by (apply H1; right; apply pkey_eqb_refl).
    unfold write. cbn [fst snd]. destruct (touched_row s k f v) as [X | X]; [| rewrite E in X; unfold has, dmem in Hs1; rewrite X in Hs1; discriminate].
    rewrite X, E. clear X. unfold has, dmem in Hs1. destruct (dget pkey_eqb (k_rows s1) k) as [r |] eqn:G; [| discriminate]. clear Hs1.
    destruct F1 as (Z1 & Ok1 & O1). pose proof (O1 _ _ G) as Or.
    assert (row_ok ts r) as Rr by (destruct (dget_In _ _ _ _ G) as (k0 & _ & Hin); apply (proj2 Ok1) in Hin; tauto).
    destruct r as [fz c | fz l | l]; simpl in Or; [subst fz | destruct Rr as [Rr _]; rewrite Rr in Hf; contradiction | contradiction].
    destruct (write_read dv t ts s1 k c f v Ok1 G Hf) as (s' & c' & A & B & D1 & D2 & D3 & D4 & D5).
    rewrite A. cbn [fst snd]. exists s'. split; auto.
    assert (forall k', dget pkey_eqb (k_rows s') k' = if pkey_eqb k k' then Some (RoRow false c') else dget pkey_eqb (k_rows s1) k') as Gs.
    { intros k'. destruct (pkey_eqb k k') eqn:X; [| now apply D3]. now rewrite <- (dget_cong pkey_eqb pkey_eqb_sym pkey_eqb_trans _ _ _ X). }
    split; [split; [congruence | split] | split].
    - pose proof (kstep_ok dv t ts Hn s1 (KRowSet k f v) Ok1) as Y. rewrite A in Y. apply Y. simpl. intros Z. rewrite Z in Hf. contradiction.
    - intros k' r' Y. rewrite Gs in Y. destruct (pkey_eqb k k'); [injection Y as <-; simpl; auto | eauto].
    - intros k'. rewrite <- H1. unfold has, dmem. rewrite Gs. destruct (pkey_eqb k k') eqn:X; [| tauto].
      split; auto. intros _. rewrite <- (dget_cong pkey_eqb pkey_eqb_sym pkey_eqb_trans _ _ _ X), G. reflexivity.
    - intros k' g Hg. rewrite <- C1 by auto. unfold cell. rewrite Gs. destruct (pkey_eqb k k') eqn:X; cbn [andb]; auto.
      rewrite <- (dget_cong pkey_eqb pkey_eqb_sym pkey_eqb_trans _ _ _ X), G. destruct (String.eqb f g) eqn:Y.
      + apply String.eqb_eq in Y. now subst g.
      + apply String.eqb_neq in Y. apply D2. congruence.
  Qed.

  Lemma write_key : forall s k f, fine s -> key_ok ts k = true ->
    exists s', write dv t ts f s (k, None) = Some s' /\ fine s' /\ (forall k', has s' k' <-> has s k' \/ pkey_eqb k k' = true) /\
      (forall k' g, In g (tdf ts) -> cell s' k' g = cell s k' g).
  Proof.
    intros s k f F Hk. destruct (touch s k F Hk) as (s1 & E & R). exists s1. split; auto. unfold write. cbn [fst snd].
    destruct (dmem pkey_eqb (k_rows s) k) eqn:M.
    - unfold k_getitem in E. rewrite M in E. cbn [negb andb fst] in *. now rewrite E.
    - cbn [kstep]. unfold k_getitem in E. rewrite M, (proj1 F) in E. cbn [negb andb fst] in E.
      destruct (make_default dv t ts Hn) as (r & Hr & _). unfold k_setitem in *. rewrite Hk, Hr, (proj1 F) in *. cbn [fst snd] in *. now rewrite E.
  Qed.

  (** One entry with a field. *)
  Lemma run_field : forall f rows s, fine s -> In f (tdf ts) -> (forall k v, In (k, v) rows -> key_ok ts k = true) -> no_equal_keys (map fst rows) ->
    exists s', run_all (write dv t ts f) s (map (fun kv : pkey * value => (fst kv, Some (snd kv))) rows) = Some s' /\ fine s' /\
      (forall k, has s' k <-> has s k \/ exists k0 v, In (k0, v) rows /\ pkey_eqb k0 k = true) /\
      (forall k g, In g (tdf ts) -> g <> f -> cell s' k g = cell s k g) /\
      (forall k k0 v, In (k0, v) rows -> pkey_eqb k0 k = true -> cell s' k f = Some v) /\
      (forall k, (forall k0 v, In (k0, v) rows -> pkey_eqb k0 k = false) -> cell s' k f = cell s k f).
  Proof.
    intros f rows. induction rows as [| [k1 v1] rows IH]; intros s F Hf Hk Hd.
    - exists s. simpl. split; auto. split; auto. split; [intros k; split; auto; intros [X | (k0 & v & [] & _)]; auto |]. split; auto. split; auto. intros k k0 v [].
    - cbn [map run_all fst snd]. destruct (write_cell s k1 f v1 F (Hk _ _ (or_introl eq_refl)) Hf) as (s1 & E & F1 & H1 & C1). rewrite E.
      cbn [map] in Hd. apply no_equal_keys_iff in Hd. cbn [keys_distinct fst] in Hd. destruct Hd as [Hd1 Hd2]. apply no_equal_keys_iff in Hd2.
      destruct (IH s1 F1 Hf) as (s' & E' & F' & H' & G1 & G2 & G3); auto; [intros; eapply Hk; simpl; eauto |].
      exists s'. split; auto. split; auto. split; [| split; [| split]].
      + intros k. rewrite H', H1. split.
        * intros [[X | X] | (k0 & v & X & Y)]; [auto | right; exists k1, v1; simpl; auto | right; exists k0, v; simpl; auto].
        * intros [X | (k0 & v & [X | X] & Y)]; [auto | injection X as <- <-; auto | right; eauto].
      + intros k g Hg Hne. rewrite G1 by auto. rewrite C1 by auto. replace (String.eqb f g) with false; [now rewrite andb_false_r |]. symmetry. apply String.eqb_neq. congruence.
      + intros k k0 v [X | X] Y; [| eauto]. injection X as <- <-. rewrite G3.
        * rewrite C1 by auto. now rewrite Y, String.eqb_refl.
        * intros k0 v Hin. destruct (pkey_eqb k0 k) eqn:Z; auto. exfalso. assert (pkey_eqb k1 k0 = false) as W by (apply Hd1; apply in_map_iff; exists (k0, v); auto).
          rewrite (pkey_eqb_trans k1 k k0) in W; [discriminate | auto |]. rewrite pkey_eqb_sym. auto.
      + intros k Hno. rewrite G3 by (intros; eapply Hno; simpl; eauto). rewrite C1 by auto. now rewrite (Hno k1 v1) by (simpl; auto).
  Qed.

  (** One entry without a field. *)
  Lemma run_keys : forall f rows s, fine s -> (forall k v, In (k, v) rows -> key_ok ts k = true) ->
    exists s', run_all (write dv t ts f) s (map (fun kv : pkey * value => (fst kv, None)) rows) = Some s' /\ fine s' /\
      (forall k, has s' k <-> has s k \/ exists k0 v, In (k0, v) rows /\ pkey_eqb k0 k = true) /\
      (forall k g, In g (tdf ts) -> cell s' k g = cell s k g).
  Proof.
    intros f rows. induction rows as [| [k1 v1] rows IH]; intros s F Hk.
    - exists s. simpl. split; auto. split; auto. split; auto. intros k; split; auto; intros [X | (k0 & v & [] & _)]; auto.
    - cbn [map run_all fst snd]. destruct (write_key s k1 f F (Hk _ _ (or_introl eq_refl))) as (s1 & E & F1 & H1 & C1). rewrite E.
      destruct (IH s1 F1) as (s' & E' & F' & H' & G1); [intros; eapply Hk; simpl; eauto |].
      exists s'. split; auto. split; auto. split.
      + intros k. rewrite H', H1. split.
        * intros [[X | X] | (k0 & v & X & Y)]; [auto | right; exists k1, v1; simpl; auto | right; exists k0, v; simpl; auto].
        * intros [X | (k0 & v & [X | X] & Y)]; [auto | injection X as <- <-; auto | right; eauto].
      + intros k g Hg. rewrite G1 by auto. auto.
  Qed.
End Write.

(** ** The temporary object *)

Lemma fill_shape : forall dvl fr, rect fr -> exists extra, fill dvl fr = mkFr (fr_index fr) (fr_cols fr ++ map (fun x => CName (fst x)) extra) (map (fun r => (fst r, snd r ++ map snd extra)) (fr_rows fr)) /\
  NoDup (fr_cols fr ++ map (fun x => CName (fst x)) extra) /\
  (forall f, In f (map fst dvl) -> In (CName f) (fr_cols fr ++ map (fun x => CName (fst x)) extra)) /\
  (forall f, In f (map fst extra) -> In f (map fst dvl)).
Proof.
  unfold fill. induction dvl as [| [f v] dvl IH]; intros fr R; cbn [fold_left].
  - exists []. simpl. rewrite app_nil_r. split; [| split; [apply R | tauto]]. destruct fr as [i c rows]. simpl. f_equal. rewrite <- (map_id rows) at 1. apply map_ext.
    intros [a b]. simpl. now rewrite app_nil_r.
  - cbn [fst snd]. destruct (has_col fr f) eqn:E.
    + destruct (IH fr R) as (extra & A & B & C & D). exists extra. split; auto. split; auto. split.
      * intros g [<- | Hg]; auto. apply in_or_app. left. now apply has_col_iff.
      * intros g Hg. simpl. auto.
    + assert (rect (add_col fr f v)) as R'.
      { destruct R as [R1 R2]. unfold add_col. split; simpl.
        - apply NoDup_app_intro; auto; [repeat constructor; simpl; tauto |]. intros x Hx [<- | []]. apply (has_col_iff fr f) in Hx. congruence.
        - intros r Hr. apply in_map_iff in Hr as (r0 & <- & Hr). simpl. rewrite !app_length. simpl. destruct (R2 _ Hr) as [L1 L2]. rewrite L1, L2. auto. }
      destruct (IH _ R') as (extra & A & B & C & D). exists ((f, v) :: extra). unfold add_col in *. simpl in *. rewrite <- app_assoc in *. simpl in *.
      rewrite A. rewrite map_map. cbn [fst snd]. split; [f_equal; apply map_ext; intros r; rewrite <- app_assoc; reflexivity |].
      split; [exact B |]. split.
      * intros g [<- | Hg]; auto. apply in_or_app. simpl. auto.
      * intros g [<- | Hg]; auto.
Qed.

Lemma filter_map_NoDup {A B} : forall (g : A -> B) p l, NoDup (map g l) -> NoDup (map g (filter p l)).
Proof.
  induction l as [| x l IH]; simpl; auto. intros H. inversion H; subst. destruct (p x); simpl; auto. constructor; auto.
  intros Hc. apply H2. apply in_map_iff in Hc as (y & E & Hy). apply filter_In in Hy as [Hy _]. rewrite <- E. now apply in_map.
Qed.

(** The rows of a variable: keys of the right length, no two equal. *)
Definition var_ok (n : nat) (v : avar) : Prop :=
  av_rows v <> [] -> av_dim v = n /\ (forall k c, In (k, c) (av_rows v) -> List.length k = n) /\ no_equal_keys (map (fun kc => packed (fst kc)) (av_rows v)).

Definition passing (flt : value -> bool) (v : avar) : list (pkey * value) :=
  map (fun kc => (packed (fst kc), snd kc)) (filter (fun kc => flt (snd kc)) (av_rows v)).

Definition all_defaults (dv : defaults) (t : string) (ts : tschema) : Prop := forall f, In f (tdf ts) <-> In f (map fst (defaults_of dv t)).

Lemma nth_error_map_in {A B} (h : A -> B) : forall l i x, nth_error l i = Some x -> nth_error (map h l) i = Some (h x).
Proof. intros. rewrite nth_error_map. now rewrite H. Qed.

Lemma temp_table : forall dv t ts f flt v, wf_tschema ts -> tpk ts <> [] -> frameable ts -> all_defaults dv t ts -> In f (tdf ts) ->
  var_ok (List.length (tpk ts)) v -> av_rows v <> [] ->
  exists l, frame_table dv t ts (var_frame (tpk ts) f flt (av_rows v)) = Some (OKeyed l) /\
    map (fun kr => (fst kr, dget String.eqb (combine (tdf ts) (snd kr)) f)) l = map (fun kc => (fst kc, Some (snd kc))) (passing flt v).
Proof.
  intros dv t ts f flt v W Hp Fr Hd Hf Hv Hne. destruct (Hv Hne) as (_ & Hlen & Hk). clear Hv.
  unfold passing. set (rows := filter (fun kc => flt (snd kc)) (av_rows v)).
  assert (forall k c, In (k, c) rows -> List.length k = List.length (tpk ts)) as HL by (intros k c X; apply filter_In in X as [X _]; eauto).
  assert (no_equal_keys (map (fun kc => packed (fst kc)) rows)) as HK.
  { unfold no_equal_keys in *. rewrite map_map in *. now apply filter_map_NoDup. }
  set (fr := var_frame (tpk ts) f flt (av_rows v)).
  assert (fr = mkFr (map CName (tpk ts)) [CName f] (map (fun kc => (fst kc, [snd kc])) rows)) as Efr by reflexivity.
  assert (rect fr) as R.
  { rewrite Efr. split; simpl; [repeat constructor; simpl; tauto |]. intros r Hr. apply in_map_iff in Hr as ([k c] & <- & Hr). simpl. rewrite map_length. split; auto. eauto. }
  destruct (fill_shape (defaults_of dv t) fr R) as (extra & E1 & E2 & E3 & E4).
  set (ff := fill (defaults_of dv t) fr) in *.
  assert (frame_table dv t ts fr = frame_table dv t ts ff) as ->.
  { unfold frame_table. fold ff. rewrite (fill_nothing (defaults_of dv t) ff); auto. intros g Hg. rewrite E1. cbn [fr_cols]. apply (E3 _ Hg). }
  rewrite Efr in E1, E2, E3. simpl in E1, E2, E3. rewrite map_map in E1. cbn [fst snd] in E1.
  set (rest := fun (c : value) (g : string) => if String.eqb f g then c else match dget String.eqb extra g with Some d => d | None => VNone end).
  set (rs := map (fun kc : list value * value => fst kc ++ map (rest (snd kc)) (tdf ts)) rows).
  assert (forall p, In p (tpk ts) -> ~ In (CName p) (fr_cols ff)) as Hpk.
  { intros p Hpp Hc. rewrite E1 in Hc. simpl in Hc. assert (In p (tdf ts)) as Hx.
    { destruct Hc as [Hc | Hc]; [injection Hc as ->; auto |]. apply in_map_iff in Hc as ([g d] & Eg & Hc). injection Eg as ->. apply Hd. apply E4. now apply (in_map fst) in Hc. }
    unfold wf_tschema, tfields in W. eapply NoDup_app_disj; eauto. }
  assert (NoDup (map fst extra) /\ ~ In f (map fst extra)) as [Ne Nf].
  { assert (map (fun x : string * value => CName (fst x)) extra = map CName (map fst extra)) as X by (now rewrite map_map).
    rewrite X in E2. apply NoDup_cons_iff in E2 as [A B]. split; [eapply NoDup_map_inv; eauto |]. intros Y. apply A. now apply in_map. }
  assert (reads_rows ts ff rs) as Rd.
  { unfold reads_rows. rewrite E1. cbn [fr_rows]. unfold rs. clear - E3 E4 Hd Hf HL Hpk E1 Ne Nf W.
    assert (forall l, (forall x, In x l -> In x rows) -> Forall2 (fun r x => Forall2 (reads {| fr_index := map CName (tpk ts); fr_cols := CName f :: map (fun x0 => CName (fst x0)) extra; fr_rows := map (fun x0 => (fst x0, snd x0 :: map snd extra)) rows |} r) (tfields ts) x)
       (map (fun x0 : list value * value => (fst x0, snd x0 :: map snd extra)) l) (map (fun kc : list value * value => fst kc ++ map (rest (snd kc)) (tdf ts)) l)) as G; [| apply G; auto].
    induction l as [| [k c] l IH]; intros S; simpl; constructor; [| apply IH; intros; apply S; simpl; auto].
    unfold tfields. apply Forall2_app.
    - assert (List.length k = List.length (tpk ts)) as L by (eapply HL; apply S; simpl; eauto).
      assert (forall p, In p (tpk ts) -> ~ In (CName p) (CName f :: map (fun x : string * value => CName (fst x)) extra)) as Hpk' by (rewrite E1 in Hpk; exact Hpk).
      assert (forall pk' k' pre prek, tpk ts = pre ++ pk' -> k = prek ++ k' -> List.length pre = List.length prek -> List.length pk' = List.length k' ->
         Forall2 (reads {| fr_index := map CName (tpk ts); fr_cols := CName f :: map (fun x0 => CName (fst x0)) extra; fr_rows := map (fun x0 => (fst x0, snd x0 :: map snd extra)) rows |}
           (k, c :: map snd extra)) pk' k') as G; [| apply (G (tpk ts) k [] []); auto].
      induction pk' as [| p pk' IHp]; intros [| kv k'] pre prek A B D D2; simpl in D2; try discriminate; constructor.
      + right. simpl. split; [apply Hpk'; rewrite A; apply in_or_app; simpl; auto |]. exists (List.length pre). split.
        * apply nth_error_map_in. rewrite A. rewrite nth_error_app2 by lia. now rewrite Nat.sub_diag.
        * rewrite B, D. rewrite nth_error_app2 by lia. now rewrite Nat.sub_diag.
      + apply (IHp k' (pre ++ [p]) (prek ++ [kv])); try (now rewrite <- app_assoc); [rewrite !app_length; simpl; lia | lia].
    - assert (forall g, In g (tdf ts) -> In (CName g) (CName f :: map (fun x : string * value => CName (fst x)) extra)) as Hc by (intros g Hg; apply E3; now apply Hd).
      clear - Hc Ne Nf. induction (tdf ts) as [| g fs IH]; simpl; constructor; [| apply IH; intros; apply Hc; simpl; auto].
      left. simpl. unfold rest. destruct (Hc g (or_introl eq_refl)) as [X | X].
      + injection X as <-. rewrite String.eqb_refl. exists 0. auto.
      + apply in_map_iff in X as ([g' d] & Eg & X). injection Eg as ->. pose proof (In_nth_error _ _ X) as [i Hi]. exists (S i). simpl.
        split; [apply (nth_error_map_in (fun x : string * value => CName (fst x))) in Hi; exact Hi |].
        assert (String.eqb f g = false) as -> by (apply String.eqb_neq; intros ->; apply Nf; now apply (in_map fst) in X).
        rewrite (proj2 (dget_In_NoDup extra g d Ne) X). apply (nth_error_map_in snd) in Hi. exact Hi. }
  exists (map (fun kc => (packed (fst kc), map (rest (snd kc)) (tdf ts))) rows). split.
  - rewrite (frame_table_ok dv t ts ff rs); auto.
    + f_equal. unfold rows_table. destruct (tpk ts) as [| p pk] eqn:Ep; [contradiction |]. rewrite <- Ep in *. f_equal. unfold rs. rewrite map_map.
      assert (map (fun x : list value * value => (key_of ts (fst x ++ map (rest (snd x)) (tdf ts)), skipn (List.length (tpk ts)) (fst x ++ map (rest (snd x)) (tdf ts)))) rows
              = map (fun kc => (packed (fst kc), map (rest (snd kc)) (tdf ts))) rows) as ->.
      { apply map_ext_in. intros [k c] Hin. cbn [fst snd]. pose proof (HL _ _ Hin) as L. unfold key_of. rewrite <- L, firstn_app, skipn_app, Nat.sub_diag, firstn_all, skipn_all, firstn_O, app_nil_r. cbn [skipn app]. f_equal. unfold packed. now destruct k as [| a [| b m]]. }
      apply dict_of_distinct. rewrite map_map. cbn [fst]. now apply no_equal_keys_iff.
    + intros g Hg. now apply Hd.
    + rewrite E1. split; [exact E2 |]. intros r Hr. cbn [fr_rows fr_index fr_cols] in *. apply in_map_iff in Hr as ([k c] & <- & Hr). cbn [fst snd]. simpl. rewrite !map_length. split; auto. eauto.
    + intros g Hg. rewrite E1. cbn [fr_cols]. apply E3. now apply Hd.
    + right. split; [rewrite E1; reflexivity | exact Hpk].
  - rewrite !map_map. cbn [fst snd]. apply map_ext. intros [k c]. cbn [fst snd]. f_equal.
    assert (forall g, In g (tdf ts) -> dget String.eqb (combine (tdf ts) (map (rest c) (tdf ts))) g = Some (rest c g)) as G.
    { intros g Hg. clear - Hg. induction (tdf ts) as [| h fs IH]; [contradiction |]. simpl. destruct (String.eqb h g) eqn:E; [apply String.eqb_eq in E; now subst |].
      destruct Hg as [-> | Hg]; [rewrite String.eqb_refl in E; discriminate | auto]. }
    rewrite G by auto. unfold rest. now rewrite String.eqb_refl.
Qed.

Lemma passing_key : forall ts flt v k c, var_ok (List.length (tpk ts)) v -> tpk ts <> [] -> In (k, c) (passing flt v) -> key_ok ts k = true.
Proof.
  intros ts flt v k c Hv Hp Hin. unfold passing in Hin. apply in_map_iff in Hin as ([k0 c0] & E & Hin). apply filter_In in Hin as [Hin _].
  destruct Hv as (_ & L & _); [intros X; rewrite X in Hin; contradiction |]. apply L in Hin. cbn [fst snd] in E. injection E as <- _.
  apply key_ok_iff; auto. unfold packed. destruct k0 as [| a [| b m]]; simpl in *.
  - split; auto.
  - destruct (tpk ts) as [| p [| q l]]; try discriminate. eauto.
  - split; auto.
Qed.

Lemma passing_distinct : forall n flt v, var_ok n v -> no_equal_keys (map fst (passing flt v)).
Proof.
  intros n flt v Hv. unfold passing. rewrite map_map. cbn [fst]. destruct (av_rows v) as [| r l] eqn:E; [constructor |]. rewrite <- E. destruct Hv as (_ & _ & H); [congruence |].
  unfold no_equal_keys in *. rewrite map_map in *. now apply filter_map_NoDup.
Qed.

(** The part of a schema that the temporary objects need. *)
Definition ampl_schema (sch : schema) (generics : list string) (dv : defaults) : Prop :=
  wf_schema sch /\ (forall t, In t generics -> ~ In t (map fst sch)) /\
  (forall t ts, In (t, ts) sch -> all_defaults dv t ts).

(** An entry the function can use. *)
Definition good_entry (sch : schema) (e : aentry) : Prop :=
  exists ts, In (fst (fst e), ts) sch /\ tpk ts <> [] /\ var_ok (List.length (tpk ts)) (fst (snd e)) /\
    (snd (fst e) = "" -> decl_ok [(fst (fst e), Fields (mkT (tpk ts) [dummy]))] = true /\ frameable (mkT (tpk ts) [dummy])) /\
    (snd (fst e) <> "" -> In (snd (fst e)) (tdf ts) /\ frameable ts).

Lemma entry_field : forall sch generics dv mode ts t f v flt, ampl_schema sch generics dv -> In (t, ts) sch -> tpk ts <> [] -> frameable ts -> In f (tdf ts) -> f <> "" ->
  var_ok (List.length (tpk ts)) v -> entry_rows sch generics dv mode ts ((t, f), (v, flt)) = Some (map (fun kc => (fst kc, Some (snd kc))) (passing flt v)).
Proof.
  intros sch generics dv mode ts t f v flt (W & Hg & Ha) Hin Hp Fr Hf Hne Hv. unfold entry_rows. destruct (av_rows v) as [| r0 l0] eqn:Er.
  - unfold passing. rewrite Er. reflexivity.
  - assert (av_rows v <> []) as Hr by congruence. rewrite <- Er. destruct (Hv Hr) as (Hd & _). rewrite Hd, Nat.eqb_refl.
    assert (String.eqb f "" = false) as -> by now apply String.eqb_neq.
    destruct (temp_table dv t ts f flt v (proj2 W _ _ Hin) Hp Fr (Ha _ _ Hin) Hf Hv Hr) as (l & E & M).
    set (fr := var_frame (tpk ts) f flt (av_rows v)) in *.
    set (d0 := fun t' => if String.eqb t t' then OKeyed l else match dget String.eqb sch t' with Some ts' => no_rows ts' | None => OListed [] end).
    assert (List.length l = List.length (passing flt v)) as Ll by (apply (f_equal (@List.length _)) in M; now rewrite !map_length in M).
    destruct (from_frames_exact sch generics dv mode d0 [(t, PFrame fr)] W) as [_ X]; auto.
    + simpl. repeat constructor; simpl; tauto.
    + intros t' a [Y | []]. injection Y as <- <-. right. split; [intros Z; apply (Hg _ Z); now apply (in_map fst) in Hin |]. exists ts, fr. split; auto. split; auto.
      unfold d0. now rewrite String.eqb_refl.
    + intros t' ts' Hin' Hno. unfold d0. simpl in Hno. assert (String.eqb t t' = false) as -> by (apply String.eqb_neq; tauto). now rewrite (proj2 (schema_get sch t' ts' (proj1 W)) Hin').
    + destruct X as (e & gs & E1 & E2 & _).
      { intros (_ & t' & a & [Y | []] & _ & Lt). injection Y as <- <-. unfold d0 in Lt. rewrite String.eqb_refl in Lt. cbn [out_length arg_rows] in Lt.
        unfold passing in Ll. rewrite map_length in Ll. unfold fr, var_frame in Lt. cbn [fr_rows] in Lt. rewrite map_length in Lt. lia. }
      rewrite E1. rewrite (E2 _ _ Hin). unfold d0. rewrite String.eqb_refl.
      clear - M. revert M. generalize (passing flt v). induction l as [| [k r] l IH]; intros [| [k1 c1] m] M; simpl in M; try discriminate; auto.
      injection M as M1 M2 M3. cbn [map_opt map fst snd]. rewrite M2. cbn [option_map]. rewrite (IH m) by auto. now rewrite M1.
Qed.

Lemma entry_keys : forall sch generics dv mode ts t v flt, NoDup (tpk ts) -> ~ In dummy (tpk ts) -> tpk ts <> [] -> frameable (mkT (tpk ts) [dummy]) ->
  decl_ok [(t, Fields (mkT (tpk ts) [dummy]))] = true ->
  var_ok (List.length (tpk ts)) v -> entry_rows sch generics dv mode ts ((t, ""), (v, flt)) = Some (map (fun kc => (fst kc, None)) (passing flt v)).
Proof.
  intros sch generics dv mode ts t v flt Nd Hdm Hp Fr Hdecl Hv. unfold entry_rows. destruct (av_rows v) as [| r0 l0] eqn:Er.
  - unfold passing. rewrite Er. reflexivity.
  - assert (av_rows v <> []) as Hr by congruence. rewrite <- Er. destruct (Hv Hr) as (Hd & _). rewrite Hd, Nat.eqb_refl. rewrite String.eqb_refl, Hdecl.
    set (ts' := mkT (tpk ts) [dummy]) in *. set (dv' := zero_defaults [(t, Fields ts')]).
    assert (wf_tschema ts') as W'.
    { unfold wf_tschema, tfields, ts'. cbn [tpk tdf]. apply NoDup_app_intro; auto; [repeat constructor; simpl; tauto |]. intros x Hx [<- | []]. auto. }
    assert (wf_schema (dummy_schema t ts)) as W.
    { split; simpl; [repeat constructor; simpl; tauto |]. intros t' x [X | []]. injection X as <- <-. exact W'. }
    assert (all_defaults dv' t ts') as Ha.
    { unfold all_defaults, dv', zero_defaults, ts'. simpl. unfold defaults_of, dset2. simpl. rewrite String.eqb_refl. simpl. tauto. }
    destruct (temp_table dv' t ts' dummy flt v W' Hp Fr Ha) as (l & E & M); auto; [simpl; auto |].
    change (tpk ts') with (tpk ts) in E.
    set (fr := var_frame (tpk ts) dummy flt (av_rows v)) in *.
    set (d0 := fun t' : string => OKeyed l).
    assert (List.length l = List.length (passing flt v)) as Ll by (apply (f_equal (@List.length _)) in M; now rewrite !map_length in M).
    destruct (from_frames_exact (dummy_schema t ts) [] dv' "assert" d0 [(t, PFrame fr)] W) as [_ X]; auto.
    + simpl. repeat constructor; simpl; tauto.
    + intros t' a [Y | []]. injection Y as <- <-. right. split; [intros [] |]. exists ts', fr. split; [simpl; auto |]. split; auto.
    + intros t' x [Y | []] Hno. injection Y as <- <-. simpl in Hno. tauto.
    + destruct X as (e & gs & E1 & E2 & _).
      { intros (_ & t' & a & [Y | []] & _ & Lt). injection Y as <- <-. unfold d0 in Lt. cbn [out_length arg_rows] in Lt.
        unfold passing in Ll. rewrite map_length in Ll. unfold fr, var_frame in Lt. cbn [fr_rows] in Lt. rewrite map_length in Lt. lia. }
      rewrite E1. rewrite (E2 t ts' (or_introl eq_refl)). unfold d0. f_equal.
      clear - M. revert M. generalize (passing flt v). induction l as [| [k r] l IH]; intros [| [k1 c1] m] M; simpl in M; try discriminate; auto.
      injection M as M1 M2 M3. simpl. rewrite (IH m) by auto. now rewrite M1.
Qed.

(** ** The whole loop *)

(** Some variable given for field [f] of table [t] has value [v] at key [k], and the filter keeps it. *)
Definition passes (entries : list aentry) (t f : string) (k : pkey) (v : value) : Prop :=
  exists x flt k0, In ((t, f), (x, flt)) entries /\ In (k0, v) (av_rows x) /\ flt v = true /\ pkey_eqb (packed k0) k = true.

Lemma passes_passing : forall e t f k v, passes [e] t f k v <-> fst e = (t, f) /\ exists k0, In (k0, v) (passing (snd (snd e)) (fst (snd e))) /\ pkey_eqb k0 k = true.
Proof.
  intros [[t0 f0] [x flt]] t f k v. unfold passes, passing. cbn [fst snd]. split.
  - intros (x' & flt' & k0 & [X | []] & A & B & C). injection X as <- <- <- <-. split; auto. exists (packed k0). split; auto.
    apply in_map_iff. exists (k0, v). split; auto. apply filter_In. auto.
  - intros [E (k0 & A & B)]. injection E as <- <-. apply in_map_iff in A as ([k1 c] & X & Y). cbn [fst snd] in X. injection X as <- <-. apply filter_In in Y as [Y1 Y2]. cbn [snd] in Y2.
    exists x, flt, k1. simpl. auto.
Qed.

Lemma passes_app : forall a b t f k v, passes (a ++ b) t f k v <-> passes a t f k v \/ passes b t f k v.
Proof.
  intros. unfold passes. split.
  - intros (x & flt & k0 & X & R). apply in_app_or in X as [X | X]; [left | right]; exists x, flt, k0; auto.
  - intros [(x & flt & k0 & X & R) | (x & flt & k0 & X & R)]; exists x, flt, k0; split; auto; apply in_or_app; auto.
Qed.

Definition named (entries : list aentry) : list (string * string) := map fst (filter (fun e => negb (String.eqb (snd (fst e)) "")) entries).

Section Loop.
  Variable sch : schema.
  Variable generics : list string.
  Variable dv : defaults.
  Variable mode : string.
  Hypothesis A : ampl_schema sch generics dv.

  Definition inv (entries : list aentry) (st : string -> ktable) : Prop :=
    forall t ts, In (t, ts) sch -> fine ts (st t) /\
      (forall k, has (st t) k <-> exists f v, passes entries t f k v) /\
      (forall k f, In f (tdf ts) -> f <> "" ->
         (forall v, passes entries t f k v -> cell dv t ts (st t) k f = Some v) /\
         ((forall v, ~ passes entries t f k v) -> cell dv t ts (st t) k f = Some (cell_default dv t f))).

  Lemma inv_empty : inv [] (fun _ => mkK false []).
  Proof.
    intros t ts _. split; [apply fine_empty |]. split.
    - intros k. unfold has. simpl. split; [discriminate |]. intros (f & v & x & flt & k0 & [] & _).
    - intros k f _ _. split; [intros v (x & flt & k0 & [] & _) | auto].
  Qed.

  Lemma dummy_free : forall t ts, decl_ok [(t, Fields (mkT (tpk ts) [dummy]))] = true -> ~ In dummy (tpk ts).
  Proof.
    intros t ts H Hin. unfold decl_ok in H. apply andb_true_iff in H as [_ H]. cbn [forallb snd] in H. rewrite andb_true_r in H.
    unfold decl_table_ok in H. cbn [tpk tdf] in H. apply andb_true_iff in H as [H _]. apply andb_true_iff in H as [_ H]. apply distinct_b_iff in H.
    eapply NoDup_app_disj; eauto. simpl. auto.
  Qed.

  Lemma inv_step : forall entries st e, inv entries st -> good_entry sch e -> (snd (fst e) <> "" -> ~ In (fst e) (map fst entries)) ->
    exists st', copy_entry sch generics dv mode st e = Some st' /\ inv (entries ++ [e]) st'.
  Proof.
    intros entries st e I (ts & Hin & Hp & Hv & G1 & G2) Hnew. destruct A as (W & Hg & Ha).
    destruct e as [[t f] [x flt]]. cbn [fst snd] in *. destruct (I _ _ Hin) as (F & Hh & Hc).
    assert (NoDup (tpk ts ++ tdf ts)) as Wt by (apply (proj2 W _ _ Hin)).
    unfold copy_entry. cbn [fst snd]. rewrite (proj2 (schema_get sch t ts (proj1 W)) Hin).
    assert (exists s', match entry_rows sch generics dv mode ts ((t, f), (x, flt)) with Some l => run_all (write dv t ts f) (st t) l | None => None end = Some s' /\ fine ts s' /\
      (forall k, has s' k <-> has (st t) k \/ exists k0 v, In (k0, v) (passing flt x) /\ pkey_eqb k0 k = true) /\
      (forall k g, In g (tdf ts) -> g <> f -> cell dv t ts s' k g = cell dv t ts (st t) k g) /\
      (f <> "" -> forall k k0 v, In (k0, v) (passing flt x) -> pkey_eqb k0 k = true -> cell dv t ts s' k f = Some v) /\
      (f <> "" -> forall k, (forall k0 v, In (k0, v) (passing flt x) -> pkey_eqb k0 k = false) -> cell dv t ts s' k f = cell dv t ts (st t) k f)) as (s' & E & F' & H' & C1 & C2 & C3).
    { destruct (string_dec f "") as [-> | Hne].
      - destruct (G1 eq_refl) as [D1 D2]. rewrite entry_keys; auto; [| eapply NoDup_app_l; eauto | eapply dummy_free; eauto].
        destruct (run_keys dv t ts (NoDup_app_r _ _ Wt) "" (passing flt x) (st t) F) as (s' & E & F' & H' & C1); [intros; eapply passing_key; eauto |].
        exists s'. split; auto. split; auto. split; auto. split; [auto |]. split; intros X; congruence.
      - destruct (G2 Hne) as [D1 D2]. rewrite entry_field; auto.
        destruct (run_field dv t ts (NoDup_app_r _ _ Wt) f (passing flt x) (st t) F D1) as (s' & E & F' & H' & C1 & C2 & C3); [intros; eapply passing_key; eauto | eapply passing_distinct; eauto |].
        exists s'. split; [exact E |]. split; [exact F' |]. split; [exact H' |]. split; [exact C1 |]. split; intros _; [exact C2 | exact C3]. }
    destruct (entry_rows sch generics dv mode ts ((t, f), (x, flt))) as [l |] eqn:El; [| discriminate]. rewrite E. cbn [option_map]. eexists. split; [reflexivity |].
    intros t' ts' Hin'. cbv beta. destruct (String.eqb t t') eqn:Et.
    - apply String.eqb_eq in Et. subst t'.
      assert (ts' = ts) as -> by (apply (schema_get sch t ts (proj1 W)) in Hin; apply (schema_get sch t ts' (proj1 W)) in Hin'; congruence).
      split; auto. split.
      + intros k. rewrite H', Hh. split.
        * intros [(g & v & X) | (k0 & v & X & Y)]; [exists g, v; apply passes_app; auto |]. exists f, v. apply passes_app. right. apply passes_passing. cbn [fst snd]. split; eauto.
        * intros (g & v & X). apply passes_app in X as [X | X]; [left; eauto |]. apply passes_passing in X. cbn [fst snd] in X. destruct X as [X (k0 & Y & Z)]. right. eauto.
      + intros k g Hgf Hgne. destruct (Hc k g Hgf Hgne) as [P1 P2]. destruct (string_dec g f) as [-> | Hd].
        * assert (forall v, ~ passes entries t f k v) as Hno.
          { intros v (x' & flt' & k0 & X & _). apply (Hnew Hgne). now apply (in_map fst) in X. }
          split.
          -- intros v X. apply passes_app in X as [X | X]; [exfalso; eapply Hno; eauto |]. apply passes_passing in X. cbn [fst snd] in X. destruct X as [_ (k0 & Y & Z)]. eauto.
          -- intros X. rewrite C3; auto. intros k0 v Y. destruct (pkey_eqb k0 k) eqn:Z; auto. exfalso. apply (X v). apply passes_app. right. apply passes_passing. cbn [fst snd]. split; eauto.
        * rewrite C1 by auto. split.
          -- intros v X. apply passes_app in X as [X | X]; [auto |]. apply passes_passing in X. cbn [fst snd] in X. destruct X as [X _]. injection X as X. congruence.
          -- intros X. apply P2. intros v Y. apply (X v). apply passes_app. auto.
    - apply String.eqb_neq in Et. destruct (I _ _ Hin') as (F2 & Hh2 & Hc2).
      assert (forall g k v, passes (entries ++ [((t, f), (x, flt))]) t' g k v <-> passes entries t' g k v) as Eq.
      { intros g k v. rewrite passes_app, passes_passing. cbn [fst]. split; auto. intros [X | [X _]]; auto. congruence. }
      split; auto. split.
      + intros k. rewrite Hh2. split; intros (g & v & X); exists g, v; now apply Eq.
      + intros k g Hgf Hgne. destruct (Hc2 k g Hgf Hgne) as [P1 P2]. split; [intros v X; apply Eq in X; auto |]. intros X. apply P2. intros v Y. apply (X v). now apply Eq.
  Qed.

  Lemma inv_loop : forall rest entries st, inv entries st -> Forall (good_entry sch) rest -> NoDup (named rest) ->
    (forall e, In e rest -> snd (fst e) <> "" -> ~ In (fst e) (map fst entries)) ->
    exists st', run_all (copy_entry sch generics dv mode) st rest = Some st' /\ inv (entries ++ rest) st'.
  Proof.
    induction rest as [| e rest IH]; intros entries st I Hg Hn Hd; cbn [run_all].
    - exists st. rewrite app_nil_r. auto.
    - inversion Hg; subst. destruct (inv_step entries st e I) as (st1 & E & I1); auto; [apply Hd; simpl; auto |]. rewrite E.
      unfold named in Hn. cbn [filter] in Hn.
      destruct (IH (entries ++ [e]) st1 I1) as (st' & E' & I'); auto.
      + destruct (negb (String.eqb (snd (fst e)) "")); auto. cbn [map] in Hn. now inversion Hn.
      + intros e' He' Hne Hc. rewrite map_app in Hc. apply in_app_or in Hc as [Hc | [Hc | []]]; [eapply Hd; simpl; eauto |].
        assert (negb (String.eqb (snd (fst e)) "") = true) as X by (rewrite Hc; apply negb_true_iff, String.eqb_neq; auto).
        rewrite X in Hn. cbn [map] in Hn. apply NoDup_cons_iff in Hn as [Hn _]. apply Hn. rewrite Hc. apply in_map. apply filter_In. split; auto. apply negb_true_iff, String.eqb_neq. auto.
      + exists st'. split; auto. now rewrite <- app_assoc in I'.
  Qed.

  Theorem from_ampl : forall entries, Forall (good_entry sch) entries -> NoDup (named entries) ->
    exists st, copy_from_ampl sch generics dv mode entries = Some st /\ inv entries st.
  Proof.
    intros entries Hg Hn. unfold copy_from_ampl.
    assert (forallb (entry_ok sch) entries = true) as ->.
    { apply forallb_forall. intros e He. rewrite Forall_forall in Hg. destruct (Hg e He) as (ts & Hin & Hp & _ & _ & Hf). unfold entry_ok.
      rewrite (proj2 (schema_get sch _ ts (proj1 (proj1 A))) Hin). apply andb_true_iff. split.
      - destruct (tpk ts); [contradiction | reflexivity].
      - destruct (String.eqb (snd (fst e)) "") eqn:E; [apply orb_true_r |]. apply String.eqb_neq in E. destruct (Hf E) as [X _]. apply orb_true_iff. left. now apply mem_str_iff. }
    destruct (inv_loop entries [] _ inv_empty Hg Hn) as (st & E & I); [intros ? ? ? [] |]. exists st. auto.
  Qed.
End Loop.

(** With the default filter and default value 0, the cell equals the value of the variable. *)
Lemma nonzero_false : forall v, nonzero v = false -> pyeq v (VNum (of_int 0)) = true.
Proof. intros v H. unfold nonzero, cell_neq in H. destruct v; try discriminate; now apply negb_false_iff in H. Qed.

Lemma NoDup_map_eq {A B} (h : A -> B) : forall l x y, NoDup (map h l) -> In x l -> In y l -> h x = h y -> x = y.
Proof.
  induction l as [| z l IH]; simpl; intros x y N Hx Hy E; [contradiction |]. inversion N; subst.
  destruct Hx as [-> | Hx], Hy as [-> | Hy]; auto.
  - exfalso. apply H1. rewrite E. now apply in_map.
  - exfalso. apply H1. rewrite <- E. now apply in_map.
Qed.

Theorem zero_default : forall sch generics dv mode entries st t ts f x k0 v k c, ampl_schema sch generics dv -> Forall (good_entry sch) entries -> NoDup (named entries) ->
  copy_from_ampl sch generics dv mode entries = Some st -> In (t, ts) sch -> In f (tdf ts) -> f <> "" -> cell_default dv t f = VNum (of_int 0) ->
  In ((t, f), (x, nonzero)) entries -> In (k0, v) (av_rows x) -> pkey_eqb (packed k0) k = true ->
  dget pkey_eqb (k_rows (st t)) k = Some (RoRow false c) -> exists w, cell_at ts c f = Some w /\ pyeq w v = true.
Proof.
  intros sch generics dv mode entries st t ts f x k0 v k c A Hg Hn E Hin Hf Hne Hd He Hx Hk Hc.
  destruct (from_ampl sch generics dv mode A entries Hg Hn) as (st' & E' & I). rewrite E in E'. injection E' as <-.
  destruct (I _ _ Hin) as (_ & _ & Hcell). destruct (Hcell k f Hf Hne) as [C1 C2]. unfold cell in C1, C2. rewrite Hc in C1, C2.
  destruct (nonzero v) eqn:Ez.
  - exists v. split; [apply C1; exists x, nonzero, k0; auto | apply PyValFacts.pyeq_refl].
  - exists (VNum (of_int 0)). rewrite <- Hd at 1. split; [| rewrite PyValFacts.pyeq_sym; now apply nonzero_false].
    apply C2. intros v' (x' & flt' & k1 & He' & Hx' & Hf' & Hk').
    assert (forall y, In ((t, f), y) entries -> In ((t, f), y) (filter (fun e => negb (String.eqb (snd (fst e)) "")) entries)) as S.
    { intros y Hy. apply filter_In. split; auto. cbn [fst snd]. apply negb_true_iff. now apply String.eqb_neq. }
    assert (((t, f), (x', flt')) = ((t, f), (x, nonzero))) as Q by (eapply (NoDup_map_eq fst); [exact Hn | apply S; auto | apply S; auto | reflexivity]).
    injection Q as -> ->. rewrite Forall_forall in Hg. destruct (Hg _ He) as (ts' & Hin' & _ & Hv & _). cbn [fst snd] in *.
    destruct Hv as (_ & _ & Hd2); [intros Z; rewrite Z in Hx; contradiction |]. unfold no_equal_keys in Hd2. rewrite map_map in Hd2.
    assert ((k1, v') = (k0, v)) as Q; [| injection Q as -> ->; congruence].
    apply (NoDup_map_eq _ _ _ _ Hd2 Hx' Hx). cbn [fst]. apply pkey_eqb_iff. eapply pkey_eqb_trans; eauto. now rewrite pkey_eqb_sym.
Qed.
