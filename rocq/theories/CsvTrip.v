(** * Tables built from the rows of a file. *)
From Coq Require Import ZArith Bool List String Arith Lia Permutation.
From Verif Require Import PyVal PyValFacts PyDict PyDictFacts PyStr ListFacts TypeDict Data FindTypes FindTypesFacts FK Obj ObjFacts ObjMore
  Factory FactoryFacts InfIO InfIOFacts Params Names NamesFacts Utils UtilsMore Json ObjRows JsonFacts JsonDups TripFacts Csv CsvFacts CsvRows.
Import ListNotations.
Local Open Scope string_scope.
Local Open Scope list_scope.

Lemma dset_map {V W} (g : V -> W) : forall (d : list (pkey * V)) k v,
  dset pkey_eqb (map (fun kv => (fst kv, g (snd kv))) d) k (g v) = map (fun kv => (fst kv, g (snd kv))) (dset pkey_eqb d k v).
Proof.
  induction d as [| [k' v'] d IH]; intros k v; simpl; auto. destruct (pkey_eqb k' k); simpl; auto. now rewrite IH.
Qed.

Lemma dict_of_map {V W} (g : V -> W) : forall (l : list (pkey * V)),
  dict_of pkey_eqb (map (fun kv => (fst kv, g (snd kv))) l) = map (fun kv => (fst kv, g (snd kv))) (dict_of pkey_eqb l).
Proof.
  intros l. unfold dict_of. change (@nil (pkey * W)) with (map (fun kv : pkey * V => (fst kv, g (snd kv))) []). generalize (@nil (pkey * V)).
  induction l as [| [k v] l IH]; intros d; auto. unfold dupdate in *. cbn [map fold_left fst snd]. rewrite dset_map. apply IH.
Qed.

Lemma dset_In {V} : forall (d : list (pkey * V)) k v k0 v0, In (k0, v0) (dset pkey_eqb d k v) -> (In k0 (map fst d) \/ k0 = k) /\ (In v0 (map snd d) \/ v0 = v).
Proof.
  induction d as [| [k' v'] d IH]; intros k v k0 v0; simpl.
  - intros [E | []]. injection E as <- <-. auto.
  - destruct (pkey_eqb k' k); simpl.
    + intros [E | H]; [injection E as <- <-; auto |]. split; left; right; [now apply (in_map fst) in H | now apply (in_map snd) in H].
    + intros [E | H]; [injection E as <- <-; auto |]. destruct (IH _ _ _ _ H). intuition.
Qed.

Lemma dict_of_In {V} : forall (l : list (pkey * V)) k v, In (k, v) (dict_of pkey_eqb l) -> In k (map fst l) /\ In v (map snd l).
Proof.
  intros l. unfold dict_of.
  assert (forall (d : list (pkey * V)) k v, In (k, v) (dupdate pkey_eqb d l) -> (In k (map fst d) \/ In k (map fst l)) /\ (In v (map snd d) \/ In v (map snd l))) as H.
  { induction l as [| [k0 v0] l IH]; intros d k v H.
    - cbn in H. split; left; [now apply (in_map fst) in H | now apply (in_map snd) in H].
    - unfold dupdate in *. cbn [fold_left fst snd] in H. apply IH in H as [A B].
      assert (forall k1, In k1 (map fst (dset pkey_eqb d k0 v0)) -> In k1 (map fst d) \/ k1 = k0) as K.
      { intros k1 H. apply in_map_iff in H as ([k2 v2] & <- & H). now apply dset_In in H. }
      assert (forall v1, In v1 (map snd (dset pkey_eqb d k0 v0)) -> In v1 (map snd d) \/ v1 = v0) as K'.
      { intros v1 H. apply in_map_iff in H as ([k2 v2] & <- & H). now apply dset_In in H. }
      split.
      + destruct A as [A | A]; [| simpl; auto]. destruct (K _ A) as [A' | ->]; simpl; auto.
      + destruct B as [B | B]; [| simpl; auto]. destruct (K' _ B) as [B' | ->]; simpl; auto. }
  intros k v Hin. destruct (H [] k v Hin) as [[[] | A] [[] | B]]. auto.
Qed.

Lemma key_of_shape : forall ts (r : list value), tpk ts <> [] -> List.length r = List.length (tfields ts) ->
  key_shape ts (key_of ts r) /\ key_of ts r = packed (key_cells (key_of ts r)) /\ key_cells (key_of ts r) = firstn (List.length (tpk ts)) r.
Proof.
  intros ts r Hp L. unfold key_of.
  assert (List.length (firstn (List.length (tpk ts)) r) = List.length (tpk ts)) as Lf.
  { rewrite firstn_length, L. unfold tfields. rewrite app_length. lia. }
  destruct (firstn (List.length (tpk ts)) r) as [| a [| b l]]; simpl in *; auto.
Qed.

(** The table built from rows of the right length. *)
Definition rows_table (ts : tschema) (rs : list (list value)) : otable :=
  match tpk ts with
  | [] => OListed rs
  | _ => OKeyed (dict_of pkey_eqb (map (fun r => (key_of ts r, skipn (List.length (tpk ts)) r)) rs))
  end.

Theorem built_ok : forall dv t ts rs, (forall r, In r rs -> List.length r = List.length (tfields ts)) ->
  init_one dv t ts (built ts rs) = Some (rows_table ts rs) /\ in_length (built ts rs) = out_length (rows_table ts rs).
Proof.
  intros dv t ts rs L. unfold built, rows_table, init_one. destruct (tpk ts) as [| p pk] eqn:Ep.
  - assert (tfields ts = tdf ts) as Ef by (unfold tfields; now rewrite Ep). rewrite Ef in L.
    split; [| simpl; apply map_length].
    assert (good_rows (tdf ts) (map RSeq rs) = true) as ->.
    { apply good_rows_iff. intros x Hx. apply in_map_iff in Hx as (r & <- & Hr). simpl. auto. }
    assert (map_opt (row_factory dv t ts) (map RSeq rs) = Some rs) as ->; auto.
    clear - L. induction rs as [| r rs IH]; simpl; auto. rewrite row_factory_seq by (apply L; simpl; auto). rewrite IH; auto.
    intros; apply L; simpl; auto.
  - rewrite <- Ep. assert (tpk ts <> []) as Hne by congruence. clear p pk Ep.
    set (pairs := map (fun r => (key_of ts r, skipn (List.length (tpk ts)) r)) rs).
    assert (map (fun r => (key_of ts r, RSeq (skipn (List.length (tpk ts)) r))) rs = map (fun kv => (fst kv, RSeq (snd kv))) pairs) as ->.
    { unfold pairs. now rewrite map_map. }
    rewrite dict_of_map. set (l := dict_of pkey_eqb pairs). split; [| simpl; apply map_length].
    assert (forall k r, In (k, r) l -> key_shape ts k /\ k = packed (key_cells k) /\ List.length r = List.length (tdf ts)) as H2.
    { intros k r H. apply dict_of_In in H as [A B]. unfold pairs in A, B. rewrite map_map in A, B.
      apply in_map_iff in A as (r1 & <- & A). apply in_map_iff in B as (r2 & <- & B). cbn [fst snd].
      destruct (key_of_shape ts r1 Hne (L _ A)) as (S1 & S2 & _). split; [exact S1 |]. split; [exact S2 |].
      rewrite skipn_length, (L _ B). unfold tfields. rewrite app_length. lia. }
    assert (forallb (fun kr : pkey * rowin => Nat.eqb (keylen (fst kr)) (List.length (tpk ts))) (map (fun kr => (fst kr, RSeq (snd kr))) l) = true) as ->.
    { apply forallb_forall. intros [k x] Hin. apply in_map_iff in Hin as ([k' r] & E & Hin). injection E as <- <-.
      destruct (H2 _ _ Hin) as [H3 _]. apply Nat.eqb_eq. destruct k'; simpl in *; auto. }
    assert (good_rows (tdf ts) (map snd (map (fun kr => (fst kr, RSeq (snd kr))) l)) = true) as ->.
    { apply good_rows_iff. intros x Hin. rewrite map_map in Hin. apply in_map_iff in Hin as ([k r] & <- & Hin).
      simpl. now apply (H2 k r Hin). }
    assert (forallb (fun kr : pkey * rowin => key_len_ok (List.length (tpk ts)) (fst kr)) (map (fun kr => (fst kr, RSeq (snd kr))) l) = true) as ->.
    { apply forallb_forall. intros [k x] Hin. apply in_map_iff in Hin as ([k' r] & E & Hin). injection E as <- <-. cbn [fst snd].
      destruct (H2 _ _ Hin) as (H3 & H4 & _). unfold key_len_ok, key_shape in *. destruct k' as [v | lv].
      - rewrite H3. apply orb_true_r.
      - rewrite <- H3. rewrite Nat.eqb_refl. destruct lv as [| v1 [| v2 lv]]; simpl in *; auto; try discriminate.
        exfalso. destruct (tpk ts); [contradiction | discriminate]. }
    cbn [andb].
    assert (map_opt (fun kr : pkey * rowin => option_map (pair (fst kr)) (row_factory dv t ts (snd kr))) (map (fun kr => (fst kr, RSeq (snd kr))) l) = Some l) as ->;
      [| now destruct (tpk ts)].
    assert (forall k r, In (k, r) l -> List.length r = List.length (tdf ts)) as H5 by (intros k r Hin; now apply (H2 k r Hin)).
    clear - H5. induction l as [| [k r] l IH]; simpl; auto. rewrite row_factory_seq by (eapply H5; simpl; eauto). simpl.
    rewrite IH; auto. intros; eapply H5; simpl; eauto.
Qed.

Section Created.
  Variable date_of : value -> option Z.
  Variable float_of : value -> option value.
  Variable f : factory.
  (** The arguments found for a table: none or one. *)
  Variable g : string * tschema -> outcome (list (string * tablein)).

  Definition created : outcome obj :=
    bindO (mapO g (plain_schema f)) (fun l =>
      match construct (plain_schema f) (f_defaults f) (dup_mode f) (List.concat l) with
      | None => Raise
      | Some d => Ret (adjust_params date_of float_of f d)
      end).

  Definition gives (t : string) (ts : tschema) (tb : otable) : Prop :=
    (g (t, ts) = Ret [] /\ tb = no_rows ts) \/
    exists inp, g (t, ts) = Ret [(t, inp)] /\ init_one (f_defaults f) t ts inp = Some tb /\ in_length inp <= out_length tb.

  Theorem created_ok : forall d0 : obj, decl_ok (f_decl f) = true ->
    (forall t ts, In (t, ts) (plain_schema f) -> gives t ts (d0 t)) ->
    exists d1, created = Ret (adjust_params date_of float_of f d1) /\ forall t ts, In (t, ts) (plain_schema f) -> d1 t = d0 t.
  Proof.
    intros d0 Hd Hg. pose proof (plain_wf f Hd) as Hwf. unfold created.
    assert (forall l, (forall t ts, In (t, ts) l -> In (t, ts) (plain_schema f)) -> NoDup (map fst l) -> exists parts, mapO g l = Ret parts /\
              (forall t inp, In (t, inp) (List.concat parts) -> exists ts, In (t, ts) l /\ g (t, ts) = Ret [(t, inp)]) /\
              (forall t ts, In (t, ts) l -> ~ In t (map fst (List.concat parts)) -> g (t, ts) = Ret []) /\
              NoDup (map fst (List.concat parts))) as H.
    { induction l as [| [t ts] l IH]; intros Hsub Hn.
      - exists []. simpl. repeat split; auto; try (intros; contradiction); try constructor.
      - cbn [map fst] in Hn. inversion Hn as [| ? ? Hx Hn']; subst. destruct IH as (parts & A & B & C & D); auto.
        { intros; apply Hsub; simpl; auto. }
        assert (forall inp, ~ In (t, inp) (List.concat parts)) as Hnot.
        { intros inp Hi. destruct (B _ _ Hi) as (ts0 & H0 & _). apply Hx. now apply (in_map fst) in H0. }
        cbn [mapO]. destruct (Hg t ts) as [[E _] | (inp & E & _)]; [apply Hsub; simpl; auto | |]; rewrite E, A.
        + exists ([] :: parts). cbn [List.concat app]. repeat split; auto.
          * intros t0 inp Hi. destruct (B _ _ Hi) as (ts0 & X & Y). exists ts0. simpl. auto.
          * intros t0 ts0 [H0 | H0] Hn0; [now injection H0 as <- <- | eauto].
        + exists ([(t, inp)] :: parts). cbn [List.concat app map fst]. repeat split; auto.
          * intros t0 inp0 [H0 | H0]; [injection H0 as <- <-; exists ts; simpl; auto |]. destruct (B _ _ H0) as (ts0 & X & Y). exists ts0. simpl. auto.
          * intros t0 ts0 [H0 | H0] Hn0; [injection H0 as <- <-; exfalso; apply Hn0; simpl; auto | apply C; auto]. intros Hc. apply Hn0. simpl. auto.
          * constructor; auto. intros Hc. apply in_map_iff in Hc as ([t1 inp1] & E1 & Hc). cbn [fst] in E1. subst t1. eapply Hnot; eauto. }
    destruct (H (plain_schema f)) as (parts & A & B & C & D); auto; [apply Hwf |]. rewrite A. cbn [bindO].
    destruct (construct_tables (plain_schema f) (f_defaults f) (dup_mode f) d0 (List.concat parts)) as (e & E & F); auto.
    - intros t inp Hi. destruct (B _ _ Hi) as (ts & X & Y). exists ts. split; auto.
      destruct (Hg t ts X) as [[Z _] | (inp' & Z & W)]; [congruence |]. rewrite Y in Z. injection Z as <-. exact W.
    - intros t ts Hi Hn. specialize (C _ _ Hi Hn). destruct (Hg t ts Hi) as [[_ Z] | (inp' & Z & W)]; [auto | congruence].
    - rewrite E. exists e. auto.
  Qed.
End Created.

(** ** Counting *)

Lemma count_get : forall ks (d : list (pkey * nat)) k,
  dget_or pkey_eqb (fold_left (fun d k => dset pkey_eqb d k (S (dget_or pkey_eqb d k 0))) ks d) k 0 = dget_or pkey_eqb d k 0 + times k ks.
Proof.
  induction ks as [| a ks IH]; intros d k; cbn [fold_left]; [unfold times; simpl; lia |]. rewrite IH. unfold dget_or at 1.
  rewrite (dget_dset pkey_eqb pkey_eqb_refl pkey_eqb_sym pkey_eqb_trans). unfold times. cbn [filter].
  destruct (pkey_eqb a k) eqn:E; cbn [List.length]; [| unfold dget_or; lia].
  unfold dget_or. rewrite (dget_cong pkey_eqb pkey_eqb_sym pkey_eqb_trans d a k E). lia.
Qed.

Lemma count_keys : forall ks (d : list (pkey * nat)), keys_distinct pkey_eqb (map fst d) ->
  let d' := fold_left (fun d k => dset pkey_eqb d k (S (dget_or pkey_eqb d k 0))) ks d in
  keys_distinct pkey_eqb (map fst d') /\ (forall k n, In (k, n) d' -> In k (map fst d) \/ In k ks) /\
  forall k, In k ks -> exists k' n, In (k', n) d' /\ pkey_eqb k' k = true.
Proof.
  induction ks as [| a ks IH]; intros d Hd; cbn [fold_left].
  - simpl. repeat split; auto; [| intros ? []]. intros k n H. left. now apply (in_map fst) in H.
  - destruct (IH (dset pkey_eqb d a (S (dget_or pkey_eqb d a 0)))) as (A & B & C).
    { now apply keys_distinct_dset. }
    cbv zeta. split; auto. split.
    + intros k n H. destruct (B _ _ H) as [X | X]; [| simpl; auto]. apply in_map_iff in X as ([k0 n0] & E & X). cbn [fst] in E. subst k0.
      apply dset_In in X as [[Y | ->] _]; simpl; auto.
    + intros k [<- | Hk]; auto.
      set (d' := fold_left _ ks _) in *.
      destruct (dget pkey_eqb d' a) as [n |] eqn:E.
      { apply dget_In in E as (k' & E1 & E2). eauto. }
      pose proof (count_get ks (dset pkey_eqb d a (S (dget_or pkey_eqb d a 0))) a) as G. fold d' in G. unfold dget_or at 1 in G. rewrite E in G.
      unfold dget_or at 1 in G. rewrite (dget_dset_same pkey_eqb pkey_eqb_refl) in G. lia.
Qed.

Theorem counted_exact : forall ks,
  (forall k n, In (k, n) (counted ks) -> In k ks /\ n = times k ks /\ 1 < n) /\
  (forall k, In k ks -> 1 < times k ks -> exists k', In (k', times k ks) (counted ks) /\ pkey_eqb k' k = true) /\
  no_equal_keys (map fst (counted ks)).
Proof.
  intros ks. unfold counted. destruct (count_keys ks [] I) as (A & B & C). cbv zeta in A, B, C.
  set (d := fold_left (fun d k => dset pkey_eqb d k (S (dget_or pkey_eqb d k 0))) ks []) in *.
  assert (forall k n, In (k, n) d -> n = times k ks) as Hn.
  { intros k n H. pose proof (count_get ks [] k) as G. fold d in G. unfold dget_or in G. cbn [dget] in G.
    rewrite (In_dget pkey_eqb pkey_eqb_refl d k n A H) in G. lia. }
  split; [| split].
  - intros k n H. apply filter_In in H as [H L]. cbn [snd] in L. apply Nat.ltb_lt in L. split; [| split; auto].
    destruct (B _ _ H) as [[] | H1]; auto.
  - intros k Hk Ht. destruct (C k Hk) as (k' & n & H1 & H2). pose proof (Hn _ _ H1) as E.
    assert (times k' ks = times k ks) as Et.
    { unfold times. f_equal. apply filter_ext. intros a. symmetry. rewrite (pkey_eqb_sym a k), (pkey_eqb_sym a k').
      now rewrite (eqb_cong_l pkey_eqb pkey_eqb_sym pkey_eqb_trans k' k a H2). }
    exists k'. split; auto. apply filter_In. rewrite Et in E. subst n. split; auto. apply Nat.ltb_lt. exact Ht.
  - apply no_equal_keys_iff. clear - A. induction d as [| [k n] d IH]; simpl; auto. destruct A as [A1 A2].
    destruct (Nat.ltb 1 n); simpl; auto. split; auto. intros k' H. apply A1. apply in_map_iff in H as (p & <- & H).
    apply filter_In in H as [H _]. now apply in_map.
Qed.

(** The table keeps the last row of each key, and is shorter than the file
    exactly if some key is reported. *)
Theorem rows_table_keyed : forall ts rs, tpk ts <> [] -> exists l, rows_table ts rs = OKeyed l /\
  no_equal_keys (map fst l) /\
  (forall i r, nth_error rs i = Some r ->
     (forall j r', i < j -> nth_error rs j = Some r' -> pkey_eqb (key_of ts r) (key_of ts r') = false) ->
     exists k, In (k, skipn (List.length (tpk ts)) r) l /\ pkey_eqb k (key_of ts r) = true) /\
  (forall k r, In (k, r) l -> exists i r0, nth_error rs i = Some r0 /\ r = skipn (List.length (tpk ts)) r0 /\ pkey_eqb k (key_of ts r0) = true /\
     forall j r', i < j -> nth_error rs j = Some r' -> pkey_eqb (key_of ts r0) (key_of ts r') = false) /\
  (List.length l = List.length rs <-> counted (map (key_of ts) rs) = []).
Proof.
  intros ts rs Hne. unfold rows_table. set (pairs := map (fun r => (key_of ts r, skipn (List.length (tpk ts)) r)) rs).
  exists (dict_of pkey_eqb pairs). split; [now destruct (tpk ts) |].
  assert (keys_distinct pkey_eqb (map fst (dict_of pkey_eqb pairs))) as Hd.
  { unfold dict_of. apply keys_distinct_dupdate. exact I. }
  assert (forall k, dget pkey_eqb (dict_of pkey_eqb pairs) k = last_bind pkey_eqb pairs k) as Hl.
  { intros k. unfold dict_of. rewrite (dget_dupdate pkey_eqb pkey_eqb_refl pkey_eqb_sym pkey_eqb_trans). now destruct (last_bind pkey_eqb pairs k). }
  assert (forall k v, last_bind pkey_eqb pairs k = Some v <-> exists i r, nth_error rs i = Some r /\ v = skipn (List.length (tpk ts)) r /\
            pkey_eqb (key_of ts r) k = true /\ forall j r', i < j -> nth_error rs j = Some r' -> pkey_eqb (key_of ts r') k = false) as Hb.
  { unfold pairs. clear. intros k. induction rs as [| r0 rs IH]; intros v; cbn [map last_bind].
    - split; [discriminate |]. intros (i & r & H & _). destruct i; discriminate.
    - destruct (last_bind pkey_eqb (map _ rs) k) as [w |] eqn:E.
      + split.
        * intros Ev. injection Ev as <-. destruct (proj1 (IH w) eq_refl) as (i & r & A & B & C & D). exists (S i), r. repeat split; auto.
          intros [| j] r' Hj Hr; [lia |]. apply (D j r'); auto. lia.
        * intros (i & r & A & B & C & D). destruct i as [| i].
          -- destruct (proj1 (IH w) eq_refl) as (i & r1 & A1 & B1 & C1 & D1). pose proof (D (S i) r1 ltac:(lia) A1). congruence.
          -- apply IH. exists i, r. repeat split; auto. intros j r' Hj Hr. apply (D (S j) r'); auto. lia.
      + destruct (pkey_eqb (key_of ts r0) k) eqn:E0.
        * split.
          -- intros Ev. injection Ev as <-. exists 0, r0. repeat split; auto. intros [| j] r' Hj Hr; [lia |]. cbn [nth_error] in Hr.
             destruct (pkey_eqb (key_of ts r') k) eqn:E'; auto. exfalso.
             clear - E E' Hr. revert j Hr. induction rs as [| r1 rs IH]; intros j Hr; [destruct j; discriminate |].
             cbn [map last_bind] in E. destruct (last_bind _ (map _ rs) k) eqn:E2; [discriminate |].
             destruct j as [| j]; [injection Hr as ->; now rewrite E' in E |]. eapply IH; eauto.
          -- intros (i & r & A & B & C & D). destruct i as [| i]; [injection A as ->; now subst |].
             exfalso. assert (@None (list value) = Some v) as X; [| discriminate]. apply IH. exists i, r. repeat split; auto.
             intros j r' Hj Hr. apply (D (S j) r'); auto. lia.
        * split; [discriminate |]. intros (i & r & A & B & C & D). destruct i as [| i]; [injection A as ->; congruence |].
          assert (@None (list value) = Some v) as X; [| discriminate]. apply IH. exists i, r. repeat split; auto.
          intros j r' Hj Hr. apply (D (S j) r'); auto. lia. }
  split; [now apply no_equal_keys_iff |]. split; [| split].
  - intros i r Hr Hlast.
    assert (last_bind pkey_eqb pairs (key_of ts r) = Some (skipn (List.length (tpk ts)) r)) as E.
    { apply Hb. exists i, r. repeat split; auto using pkey_eqb_refl. intros j r' Hj Hr'. rewrite pkey_eqb_sym. eauto. }
    rewrite <- Hl in E. apply dget_In in E as (k & E1 & E2). eauto.
  - intros k r Hin. pose proof (In_dget pkey_eqb pkey_eqb_refl _ _ _ Hd Hin) as E. rewrite Hl in E. apply Hb in E as (i & r0 & A & B & C & D).
    exists i, r0. repeat split; auto; [now rewrite pkey_eqb_sym |]. intros j r' Hj Hr'. specialize (D j r' Hj Hr').
    destruct (pkey_eqb (key_of ts r0) (key_of ts r')) eqn:X; auto. rewrite <- D. symmetry.
    eapply pkey_eqb_trans; [| exact C]. now rewrite pkey_eqb_sym.
  - pose proof (dupdate_lost pairs [] I) as H. cbn [List.length plus app] in H. unfold dict_of.
    assert (List.length pairs = List.length rs) as Lp by (unfold pairs; apply map_length). rewrite <- Lp. rewrite H, no_equal_keys_iff.
    transitivity (no_equal_keys (map (key_of ts) rs)); [unfold pairs; rewrite map_map; reflexivity |].
    rewrite no_equal_times. destruct (counted_exact (map (key_of ts) rs)) as (X & Y & _). split.
    + intros Ht. destruct (counted (map (key_of ts) rs)) as [| [k n] l]; auto. exfalso.
      destruct (X k n) as (A & B & C); [simpl; auto |]. rewrite (Ht k A) in B. lia.
    + intros E k Hk. pose proof (times_pos k _ Hk). destruct (Nat.eq_dec (times k (map (key_of ts) rs)) 1) as [| N]; auto.
      destruct (Y k Hk) as (k' & F & _); [lia |]. rewrite E in F. contradiction.
Qed.
