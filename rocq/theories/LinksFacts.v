(** * Foreign key links hold exactly the referring rows. *)
From Coq Require Import ZArith Bool List String Arith Lia Permutation.
From Verif Require Import PyVal PyValFacts PyDict PyDictFacts ListFacts Data FindTypes FindTypesFacts FK FKFacts
  GraphFacts FactoryFacts Obj ObjFacts ObjMore ObjLive Links.
Import ListNotations.
Local Open Scope string_scope.
Local Open Scope list_scope.

(** ** Specification vocabulary *)

(** The native row [(k, r)] refers to the foreign row with key [fk]. *)
Definition refers (nts fts : tschema) (m : list (string * string)) (k : pkey) (r : row) (fk : pkey) : Prop :=
  forall nf ff, In (nf, ff) m -> exists v w i,
    cell_in nts (key_cells k) r nf v /\ nth_error (tpk fts) i = Some ff /\ nth_error (key_cells fk) i = Some w /\
    canon v = canon w.

(** The part of a native key that the foreign key does not determine. *)
Definition own_key (nts : tschema) (m : list (string * string)) (k : pkey) : pkey :=
  packed (map snd (filter (fun fv => negb (mem_str (fst fv) (map fst m))) (combine (tpk nts) (key_cells k)))).

(** A foreign key onto the whole primary key of the foreign table. *)
Definition onto_key (nts fts : tschema) (m : list (string * string)) : Prop :=
  NoDup (map fst m) /\ NoDup (map snd m) /\ (forall nf ff, In (nf, ff) m -> In nf (tpk nts ++ tdf nts)) /\
  (forall x, In x (tpk fts) <-> In x (map snd m)).

(** Keyed tables with proper, unique keys. *)
Definition keyed_ok (ts : tschema) (l : list (pkey * row)) : Prop :=
  no_equal_keys (map fst l) /\
  forall k r, In (k, r) l -> key_ok ts k = true /\ List.length r = List.length (tdf ts).

(** ** Positions *)

Lemma index_of_lt : forall x l, In x l -> index_of x l < List.length l.
Proof.
  induction l as [| y l IH]; simpl; [tauto |]. intros H. destruct (String.eqb y x) eqn:E; [lia |].
  apply String.eqb_neq in E. destruct H as [H | H]; [congruence |]. apply IH in H. lia.
Qed.
Lemma index_of_get : forall x l, In x l -> nth_error l (index_of x l) = Some x.
Proof.
  induction l as [| y l IH]; simpl; [tauto |]. intros H. destruct (String.eqb y x) eqn:E.
  - apply String.eqb_eq in E. simpl. congruence.
  - apply String.eqb_neq in E. destruct H as [H | H]; [congruence |]. simpl. auto.
Qed.
Lemma index_of_unique : forall x l i, NoDup l -> nth_error l i = Some x -> index_of x l = i.
Proof.
  intros x l i Hn H. pose proof (nth_error_In _ _ H) as Hin. pose proof (index_of_get x l Hin) as H2.
  apply (proj1 (NoDup_nth_error l) Hn); [now apply index_of_lt | congruence].
Qed.

Lemma cells_as_map : forall (fs : list string) (l : list value), NoDup fs -> List.length l = List.length fs ->
  l = map (fun x => nth (index_of x fs) l VNone) fs.
Proof.
  induction fs as [| a fs IH]; intros [| c l] Hn Hl; simpl in *; try lia; auto. rewrite String.eqb_refl. f_equal.
  inversion Hn as [| ? ? N1 N2]; subst. rewrite (IH l) at 1 by (auto; lia). apply map_ext_in. intros x Hx.
  destruct (String.eqb a x) eqn:E; auto. apply String.eqb_eq in E. subst. contradiction.
Qed.

Lemma packed_pack : forall l, pack l = packed l.
Proof. reflexivity. Qed.

Lemma key_ok_cells : forall ts k, tpk ts <> [] -> key_ok ts k = true -> List.length (key_cells k) = List.length (tpk ts) /\ pack (key_cells k) = k.
Proof.
  intros ts [v | l] Hne H; simpl in *.
  - apply Nat.eqb_eq in H. auto.
  - apply andb_true_iff in H as [H1 H2]. apply Nat.ltb_lt in H1. apply Nat.eqb_eq in H2. split; auto.
    destruct l as [| a [| b l]]; simpl in *; auto. lia.
Qed.

Lemma pack_eq : forall a b, pkey_eqb (pack a) (pack b) = true <-> map canon a = map canon b.
Proof.
  intros a b. rewrite pkey_eqb_iff. destruct a as [| a1 [| a2 a]], b as [| b1 [| b2 b]]; simpl;
    split; intros H; try discriminate; try congruence.
Qed.

Lemma filter_false {A} : forall l : list A, filter (fun _ => false) l = [].
Proof. induction l; auto. Qed.

Section L.
  Variables nts fts : tschema.
  Variable m : list (string * string).
  Hypothesis Hn : NoDup (tpk nts ++ tdf nts).
  Hypothesis Hfn : NoDup (tpk fts).
  Hypothesis Hm : onto_key nts fts m.
  Hypothesis Hfk : tpk fts <> [].

  Let rev x := dget_or String.eqb (foreign_to_native m) x EmptyString.

  Lemma rev_In : forall x, In x (tpk fts) -> In (rev x, x) m.
  Proof.
    intros x Hx. destruct Hm as (_ & Hs & _ & Hin). apply Hin in Hx. apply in_map_iff in Hx as ([nf ff] & E & Hx).
    simpl in E. subst ff. unfold rev, dget_or. rewrite (proj2 (f2n_get m nf x Hs) Hx). exact Hx.
  Qed.
  Lemma rev_eq : forall nf ff, In (nf, ff) m -> rev ff = nf.
  Proof.
    intros nf ff Hx. destruct Hm as (_ & Hs & _ & _). unfold rev, dget_or. now rewrite (proj2 (f2n_get m nf ff Hs) Hx).
  Qed.

  Let cellf k r f := nth (index_of f (tpk nts ++ tdf nts)) (key_cells k ++ r) VNone.

  Lemma lookup_cells : forall k r, link_lookup nts fts m k r = pack (map (fun x => cellf k r (rev x)) (tpk fts)).
  Proof. intros k r. unfold link_lookup, local_posn. rewrite map_map. reflexivity. Qed.

  Definition sized (k : pkey) (r : row) : Prop :=
    List.length (key_cells k) = List.length (tpk nts) /\ List.length r = List.length (tdf nts).

  Lemma cellf_in : forall k r f, sized k r -> In f (tpk nts ++ tdf nts) ->
    forall v, cell_in nts (key_cells k) r f v <-> v = cellf k r f.
  Proof.
    intros k r f [H1 H2] Hf v. unfold cell_in, cellf.
    assert (List.length (key_cells k ++ r) = List.length (tpk nts ++ tdf nts)) as Hl by (rewrite !app_length; lia). split.
    - intros (i & Hi & Hv). rewrite (index_of_unique f _ i) by auto. symmetry. now apply nth_error_nth.
    - intros ->. exists (index_of f (tpk nts ++ tdf nts)). split; [now apply index_of_get |].
      apply nth_error_nth'. rewrite Hl. now apply index_of_lt.
  Qed.

  Lemma lookup_refers : forall k r fk, sized k r -> key_ok fts fk = true ->
    (pkey_eqb fk (link_lookup nts fts m k r) = true <-> refers nts fts m k r fk).
  Proof.
    intros k r fk Hs Hk. apply key_ok_cells in Hk as [Hl Hp]; auto. rewrite <- Hp at 1. rewrite lookup_cells, pack_eq.
    pose proof (cells_as_map (tpk fts) (key_cells fk) Hfn Hl) as Hc. rewrite Hc at 1. rewrite !map_map.
    destruct Hm as (_ & Hsnd & Hnf & Hin).
    assert (map (fun x => canon (nth (index_of x (tpk fts)) (key_cells fk) VNone)) (tpk fts) =
            map (fun x => canon (cellf k r (rev x))) (tpk fts) <->
            forall x, In x (tpk fts) -> canon (nth (index_of x (tpk fts)) (key_cells fk) VNone) = canon (cellf k r (rev x))) as Hmap.
    { split; [| apply map_ext_in]. intros E. now apply ext_in_map. }
    rewrite Hmap. unfold refers. split.
    - intros H nf ff Hmf. assert (In ff (tpk fts)) as Hff by (apply Hin; apply in_map_iff; now exists (nf, ff)).
      exists (cellf k r nf), (nth (index_of ff (tpk fts)) (key_cells fk) VNone), (index_of ff (tpk fts)).
      split; [| split; [| split]].
      + apply cellf_in; auto. eauto.
      + now apply index_of_get.
      + apply nth_error_nth'. rewrite Hl. now apply index_of_lt.
      + rewrite H by auto. now rewrite (rev_eq nf ff Hmf).
    - intros H x Hx. destruct (H _ _ (rev_In x Hx)) as (v & w & i & Hv & Hi & Hw & E).
      rewrite (index_of_unique x _ i) by auto. rewrite (nth_error_nth _ _ _ Hw). rewrite <- E. f_equal.
      apply cellf_in; auto. eapply Hnf. apply rev_In; auto.
  Qed.

  (** ** The remaining key *)

  Lemma used_iff : forall p, In p (tpk nts) ->
    existsb (Nat.eqb (index_of p (tpk nts ++ tdf nts))) (local_posn nts fts m) = mem_str p (map fst m).
  Proof.
    intros p Hp. destruct Hm as (_ & Hsnd & Hnf & Hin). destruct (mem_str p (map fst m)) eqn:E.
    - apply mem_str_iff in E. apply in_map_iff in E as ([nf ff] & E & Hmf). simpl in E. subst nf.
      apply existsb_exists. exists (index_of p (tpk nts ++ tdf nts)). split; [| apply Nat.eqb_refl].
      unfold local_posn. apply in_map_iff. exists ff. split.
      + fold (rev ff). now rewrite (rev_eq p ff Hmf).
      + apply Hin. apply in_map_iff. now exists (p, ff).
    - apply not_true_iff_false. intros Hc. apply existsb_exists in Hc as (i & Hi & Ei). apply Nat.eqb_eq in Ei.
      unfold local_posn in Hi. apply in_map_iff in Hi as (x & Ex & Hx). fold (rev x) in Ex.
      pose proof (rev_In x Hx) as Hmx.
      assert (rev x = p) as Hr.
      { assert (nth_error (tpk nts ++ tdf nts) (index_of (rev x) (tpk nts ++ tdf nts)) = Some (rev x)) as A
          by (apply index_of_get; eauto).
        assert (nth_error (tpk nts ++ tdf nts) (index_of p (tpk nts ++ tdf nts)) = Some p) as B
          by (apply index_of_get; apply in_app_iff; auto).
        congruence. }
      rewrite Hr in Hmx. assert (mem_str p (map fst m) = true); [| congruence].
      apply mem_str_iff. apply in_map_iff. now exists (p, x).
  Qed.

  Lemma index_of_app : forall x (l l' : list string), In x l -> index_of x (l ++ l') = index_of x l.
  Proof.
    induction l as [| y l IH]; intros l' H; simpl in *; [tauto |]. destruct (String.eqb y x) eqn:E; auto.
    apply String.eqb_neq in E. destruct H as [H | H]; [congruence |]. now rewrite IH.
  Qed.

  Lemma seq_index : forall (l : list string), NoDup l -> map (fun p => index_of p l) l = seq 0 (List.length l).
  Proof.
    induction l as [| a l IH]; intros Hd; auto. inversion Hd as [| ? ? N1 N2]; subst.
    cbn [map List.length seq index_of]. rewrite String.eqb_refl. f_equal.
    rewrite <- seq_shift, <- IH by auto. rewrite map_map. apply map_ext_in. intros x Hx.
    destruct (String.eqb a x) eqn:E; auto. apply String.eqb_eq in E. subst. contradiction.
  Qed.

  Lemma filter_map_swap {A B} (f : A -> B) (g : B -> bool) : forall l, filter g (map f l) = map f (filter (fun x => g (f x)) l).
  Proof. induction l as [| a l IH]; simpl; auto. destruct (g (f a)); simpl; now rewrite IH. Qed.

  Lemma rest_cells : forall k, List.length (key_cells k) = List.length (tpk nts) ->
    link_rest nts fts m k = pack (map (fun p => nth (index_of p (tpk nts)) (key_cells k) VNone) (new_pk nts m)).
  Proof.
    intros k Hl. unfold link_rest, new_pk. f_equal. rewrite Hl, <- seq_index by (eapply NoDup_app_l; eauto).
    rewrite filter_map_swap, map_map. f_equal. apply filter_ext_in. intros p Hp. f_equal.
    rewrite <- used_iff by auto. now rewrite index_of_app.
  Qed.

  Lemma rest_own : forall k, List.length (key_cells k) = List.length (tpk nts) -> link_rest nts fts m k = own_key nts m k.
  Proof.
    intros k Hl. rewrite rest_cells by auto. unfold own_key, new_pk. rewrite packed_pack. f_equal.
    assert (NoDup (tpk nts)) as Hd by (eapply NoDup_app_l; eauto).
    replace (combine (tpk nts) (key_cells k)) with
      (combine (tpk nts) (map (fun x => nth (index_of x (tpk nts)) (key_cells k) VNone) (tpk nts)))
      by (now rewrite <- (cells_as_map (tpk nts) (key_cells k) Hd Hl)).
    assert (forall (h : string -> value) (g : string -> bool) l, map snd (filter (fun fv => g (fst fv)) (combine l (map h l))) = map h (filter g l)) as Hg.
    { intros h g l. induction l as [| a l IH]; simpl; auto. destruct (g a); simpl; now rewrite IH. }
    now rewrite (Hg _ (fun x => negb (mem_str x (map fst m)))).
  Qed.

  Lemma rest_key_ok : forall k, List.length (key_cells k) = List.length (tpk nts) -> new_pk nts m <> [] ->
    link_key_ok nts m (link_rest nts fts m k) = true.
  Proof.
    intros k Hl Hne. rewrite rest_cells by auto. unfold link_key_ok. destruct (new_pk nts m) as [| a [| b l]]; [congruence | |]; simpl; auto.
    rewrite map_length. apply Nat.eqb_refl.
  Qed.

  (** Two rows that refer to the same foreign row have different remaining keys. *)
  Lemma rest_injective : forall k r k' r' fk, sized k r -> sized k' r' ->
    refers nts fts m k r fk -> refers nts fts m k' r' fk ->
    pkey_eqb (link_rest nts fts m k) (link_rest nts fts m k') = true ->
    map canon (key_cells k) = map canon (key_cells k').
  Proof.
    intros k r k' r' fk [H1 H2] [H1' H2'] Hr Hr' He.
    rewrite (rest_cells k), (rest_cells k'), pack_eq, !map_map in He by auto.
    assert (NoDup (tpk nts)) as Hd by (eapply NoDup_app_l; eauto).
    rewrite (cells_as_map (tpk nts) (key_cells k)), (cells_as_map (tpk nts) (key_cells k')) by auto.
    rewrite !map_map. apply map_ext_in. intros p Hp.
    assert (forall k r v, sized k r -> cell_in nts (key_cells k) r p v -> nth (index_of p (tpk nts)) (key_cells k) VNone = v) as Hcell.
    { intros k0 r0 v Hs0 Hc. apply cellf_in in Hc; auto; [| apply in_app_iff; auto]. subst v. unfold cellf.
      rewrite index_of_app by auto. symmetry. apply app_nth1. destruct Hs0 as [-> _]. now apply index_of_lt. }
    destruct (mem_str p (map fst m)) eqn:E.
    - apply mem_str_iff in E. apply in_map_iff in E as ([nf ff] & E & Hmf). simpl in E. subst nf.
      destruct (Hr _ _ Hmf) as (v & w & i & A & B & C & D). destruct (Hr' _ _ Hmf) as (v' & w' & i' & A' & B' & C' & D').
      rewrite (Hcell k r v), (Hcell k' r' v') by (auto; split; auto).
      assert (i = i') as <-.
      { apply (proj1 (NoDup_nth_error (tpk fts)) Hfn); [| congruence]. apply nth_error_Some. congruence. }
      congruence.
    - assert (In p (new_pk nts m)) as Hin by (apply filter_In; rewrite E; auto).
      apply (ext_in_map He _ Hin).
  Qed.

  (** ** All native rows *)

  Let inner native fk := map (fun kr => (link_rest nts fts m (fst kr), snd kr))
                    (filter (fun kr => pkey_eqb fk (link_lookup nts fts m (fst kr) (snd kr))) native).

  Definition state native (foreign : list (pkey * row)) : linked := map (fun kr => (fst kr, inner native (fst kr))) foreign.

  Lemma state_get : forall native (foreign : list (pkey * row)) lk,
    dget pkey_eqb (state native foreign) lk =
    match find (fun kr => pkey_eqb (fst kr) lk) foreign with Some kr => Some (inner native (fst kr)) | None => None end.
  Proof.
    intros native foreign lk. unfold state. induction foreign as [| [k r] l IH]; simpl; auto.
    destruct (pkey_eqb k lk); auto.
  Qed.

  Lemma state_set : forall native kr (foreign : list (pkey * row)) d,
    no_equal_keys (map fst foreign) ->
    let lk := link_lookup nts fts m (fst kr) (snd kr) in
    dget pkey_eqb (state native foreign) lk = Some d ->
    dset pkey_eqb (state native foreign) lk (d ++ [(link_rest nts fts m (fst kr), snd kr)]) = state (native ++ [kr]) foreign.
  Proof.
    intros native kr foreign d Hk lk. apply no_equal_keys_iff in Hk. unfold state.
    assert (forall k, inner (native ++ [kr]) k = inner native k ++ (if pkey_eqb k lk then [(link_rest nts fts m (fst kr), snd kr)] else [])) as Happ.
    { intros k. unfold inner. rewrite filter_app, map_app. f_equal. cbn [filter]. fold lk. now destruct (pkey_eqb k lk). }
    induction foreign as [| [k r] l IH]; [discriminate |]. cbn [map fst dset dget] in *. destruct Hk as [Hk1 Hk2].
    destruct (pkey_eqb k lk) eqn:E.
    - intros H. injection H as <-. rewrite Happ, E. f_equal.
      apply map_ext_in. intros [k' r'] Hin. cbn [fst]. rewrite Happ.
      replace (pkey_eqb k' lk) with false; [now rewrite app_nil_r |]. symmetry. destruct (pkey_eqb k' lk) eqn:E'; auto.
      rewrite pkey_eqb_sym in E'. pose proof (pkey_eqb_trans _ _ _ E E') as Ht. rewrite Hk1 in Ht; [discriminate |].
      now apply (in_map fst) in Hin.
    - intros H. rewrite Happ, E, app_nil_r. f_equal. auto.
  Qed.

  Lemma state_skip : forall native kr (foreign : list (pkey * row)),
    let lk := link_lookup nts fts m (fst kr) (snd kr) in
    dget pkey_eqb (state native foreign) lk = None -> state (native ++ [kr]) foreign = state native foreign.
  Proof.
    intros native kr foreign lk H. unfold state in *. induction foreign as [| [k r] l IH]; auto. cbn [map fst dget] in *.
    destruct (pkey_eqb k lk) eqn:E; [discriminate |]. rewrite IH by auto. f_equal. f_equal. unfold inner.
    rewrite filter_app, map_app. cbn [filter]. fold lk. rewrite E. apply app_nil_r.
  Qed.

  Hypothesis Hnpk : tpk nts <> [].

  Lemma make_links_state : forall native foreign, keyed_ok nts native -> keyed_ok fts foreign -> new_pk nts m <> [] ->
    make_links nts fts m native foreign = Some (state native foreign).
  Proof.
    intros native foreign Hnat Hfor Hne. unfold make_links.
    assert (map (fun kr : pkey * row => (fst kr, @nil (pkey * row))) foreign = state [] foreign) as -> by reflexivity.
    assert (forall rest done, done ++ rest = native ->
      fold_left (link_step nts fts m) rest (Some (state done foreign)) = Some (state native foreign)) as H.
    { induction rest as [| kr rest IH]; intros done E; [rewrite app_nil_r in E; now subst |].
      cbn [fold_left]. assert (done ++ [kr] ++ rest = native) as E' by exact E. rewrite app_assoc in E'.
      rewrite <- (IH _ E'). f_equal. unfold link_step.
      destruct (dget pkey_eqb (state done foreign) (link_lookup nts fts m (fst kr) (snd kr))) as [d |] eqn:Ed.
      2:{ now rewrite (state_skip done kr). }
      destruct Hnat as [Hk Hrows].
      assert (In kr native) as Hin by (rewrite <- E; apply in_app_iff; simpl; auto).
      destruct kr as [k r]. cbn [fst snd] in *. destruct (Hrows _ _ Hin) as [Hko Hl].
      apply key_ok_cells in Hko as [Hlk Hpk]; auto.
      rewrite rest_key_ok by auto. rewrite <- (state_set done (k, r) foreign d); auto; [| apply Hfor]. cbn [fst snd].
      cut (dset pkey_eqb d (link_rest nts fts m k) r = d ++ [(link_rest nts fts m k, r)]); [now intros -> |].
      apply (dset_absent pkey_eqb). apply (dget_None pkey_eqb). intros rk rr Hr.
      rewrite state_get in Ed. destruct (find _ foreign) as [[fk fr] |] eqn:Ef; [| discriminate]. injection Ed as <-.
      apply find_some in Ef as [Hfin Hfe]. cbn [fst] in *. unfold inner in Hr. apply in_map_iff in Hr as ([k' r'] & Er & Hr).
      cbn [fst snd] in Er. injection Er as <- <-. apply filter_In in Hr as [Hr Hre]. cbn [fst snd] in Hre.
      assert (In (k', r') native) as Hin' by (rewrite <- E; apply in_app_iff; auto).
      destruct (Hrows _ _ Hin') as [Hko' Hl']. apply key_ok_cells in Hko' as [Hlk' Hpk']; auto.
      assert (key_ok fts fk = true) as Hfok by (eapply Hfor; eauto).
      destruct (pkey_eqb (link_rest nts fts m k') (link_rest nts fts m k)) eqn:Ee; auto. exfalso.
      assert (map canon (key_cells k') = map canon (key_cells k)) as Ec.
      { apply (rest_injective k' r' k r fk); auto; try (split; auto); apply lookup_refers; auto; split; auto. }
      apply pack_eq in Ec. rewrite Hpk, Hpk' in Ec. apply pkey_eqb_iff in Ec.
      rewrite <- E in Hk. unfold no_equal_keys in Hk. rewrite map_app, map_app in Hk.
      apply (NoDup_app_disj _ _ (canon_key k) Hk); [| simpl; auto]. rewrite <- Ec. apply in_map.
      now apply (in_map fst) in Hr. }
    apply H. reflexivity.
  Qed.

  (** Every foreign row is linked to exactly the rows that refer to it. *)
  Theorem links_exact : forall native foreign, keyed_ok nts native -> keyed_ok fts foreign ->
    (exists p, In p (tpk nts) /\ ~ In p (map fst m)) ->
    exists links, make_links nts fts m native foreign = Some links /\ map fst links = map fst foreign /\
      forall fk d, In (fk, d) links ->
        no_equal_keys (map fst d) /\
        (forall k r, In (k, r) native -> refers nts fts m k r fk -> In (own_key nts m k, r) d) /\
        (forall rk r, In (rk, r) d -> exists k, In (k, r) native /\ refers nts fts m k r fk /\ rk = own_key nts m k).
  Proof.
    intros native foreign Hnat Hfor (p & Hp & Hpm).
    assert (new_pk nts m <> []) as Hne.
    { intros Hc. assert (In p (new_pk nts m)) as Hin; [| rewrite Hc in Hin; contradiction].
      apply filter_In. split; auto. apply negb_true_iff. now apply mem_str_false. }
    exists (state native foreign). split; [now apply make_links_state |]. split.
    { unfold state. rewrite map_map. reflexivity. }
    assert (forall k r, In (k, r) native -> sized k r) as Hsz.
    { intros k r Hin. destruct Hnat as [_ Hrows]. destruct (Hrows _ _ Hin) as [A B].
      apply key_ok_cells in A as [A _]; auto. now split. }
    intros fk d Hin. unfold state in Hin. apply in_map_iff in Hin as ([fk' fr] & E & Hin). cbn [fst] in E. injection E as -> <-.
    assert (key_ok fts fk = true) as Hfok by (eapply Hfor; eauto). split; [| split].
    - unfold inner. rewrite map_map. cbn [fst]. apply no_equal_keys_iff.
      destruct Hnat as [Hk Hrows]. apply no_equal_keys_iff in Hk.
      clear Hfor. induction native as [| [k r] l IH]; simpl; auto. destruct Hk as [Hk1 Hk2].
      destruct (pkey_eqb fk (link_lookup nts fts m k r)) eqn:E; [| apply IH; auto; intros; [eapply Hrows | eapply Hsz]; simpl; eauto].
      cbn [map]. split; [| apply IH; auto; intros; [eapply Hrows | eapply Hsz]; simpl; eauto].
      intros rk Hr. apply in_map_iff in Hr as ([k' r'] & <- & Hr). cbn [fst]. apply filter_In in Hr as [Hr Hre].
      cbn [fst snd] in Hre. destruct (pkey_eqb (link_rest nts fts m k) (link_rest nts fts m k')) eqn:Ee; auto. exfalso.
      assert (sized k r) as S1 by (apply Hsz; simpl; auto). assert (sized k' r') as S2 by (apply Hsz; simpl; auto).
      assert (map canon (key_cells k) = map canon (key_cells k')) as Ec.
      { apply (rest_injective k r k' r' fk); auto; apply lookup_refers; auto. }
      destruct (Hrows k r (or_introl eq_refl)) as [K1 _]. destruct (Hrows k' r' (or_intror Hr)) as [K2 _].
      apply key_ok_cells in K1 as [_ P1], K2 as [_ P2]; auto. apply pack_eq in Ec. rewrite P1, P2 in Ec.
      rewrite Hk1 in Ec; [discriminate |]. now apply (in_map fst) in Hr.
    - intros k r Hkr Href. unfold inner. apply in_map_iff. exists (k, r). cbn [fst snd]. split.
      + f_equal. apply rest_own. now destruct (Hsz _ _ Hkr).
      + apply filter_In. split; auto. cbn [fst snd]. apply lookup_refers; auto.
    - intros rk r Hr. unfold inner in Hr. apply in_map_iff in Hr as ([k r0] & E & Hr). cbn [fst snd] in E. injection E as <- <-.
      apply filter_In in Hr as [Hr Hre]. cbn [fst snd] in Hre. exists k. split; auto. split.
      + apply lookup_refers; auto.
      + apply rest_own. now destruct (Hsz _ _ Hr).
  Qed.

  (** ** One-to-one *)

  Let one native fk := option_map snd (find (fun kr : pkey * row => pkey_eqb fk (link_lookup nts fts m (fst kr) (snd kr))) native).

  Definition state1 native (foreign : list (pkey * row)) : list (pkey * option row) :=
    map (fun kr => (fst kr, one native (fst kr))) foreign.

  Lemma one_app : forall native kr fk, one (native ++ [kr]) fk =
    match one native fk with
    | Some r => Some r
    | None => if pkey_eqb fk (link_lookup nts fts m (fst kr) (snd kr)) then Some (snd kr) else None
    end.
  Proof.
    intros native kr fk. unfold one. induction native as [| a l IH].
    - simpl. now destruct (pkey_eqb fk _).
    - simpl. destruct (pkey_eqb fk (link_lookup nts fts m (fst a) (snd a))); auto.
  Qed.

  Lemma state1_set : forall native kr (foreign : list (pkey * row)), no_equal_keys (map fst foreign) ->
    let lk := link_lookup nts fts m (fst kr) (snd kr) in
    dget pkey_eqb (state1 native foreign) lk = Some None ->
    dset pkey_eqb (state1 native foreign) lk (Some (snd kr)) = state1 (native ++ [kr]) foreign.
  Proof.
    intros native kr foreign Hk lk. apply no_equal_keys_iff in Hk. unfold state1.
    induction foreign as [| [k r] l IH]; [discriminate |]. cbn [map fst dset dget] in *. destruct Hk as [Hk1 Hk2].
    rewrite one_app. fold lk. destruct (pkey_eqb k lk) eqn:E.
    - intros H. injection H as H. rewrite H. f_equal.
      apply map_ext_in. intros [k' r'] Hin. cbn [fst]. rewrite one_app. fold lk.
      replace (pkey_eqb k' lk) with false; [now destruct (one native k') |]. symmetry.
      destruct (pkey_eqb k' lk) eqn:E'; auto.
      rewrite pkey_eqb_sym in E'. pose proof (pkey_eqb_trans _ _ _ E E') as Ht. rewrite Hk1 in Ht; [discriminate |].
      now apply (in_map fst) in Hin.
    - intros H. rewrite IH by auto. f_equal. f_equal. now destruct (one native k).
  Qed.

  Lemma state1_skip : forall native kr (foreign : list (pkey * row)),
    let lk := link_lookup nts fts m (fst kr) (snd kr) in
    dget pkey_eqb (state1 native foreign) lk = None -> state1 (native ++ [kr]) foreign = state1 native foreign.
  Proof.
    intros native kr foreign lk H. unfold state1 in *. induction foreign as [| [k r] l IH]; auto. cbn [map fst dget] in *.
    destruct (pkey_eqb k lk) eqn:E; [discriminate |]. rewrite IH by auto. f_equal. f_equal. rewrite one_app.
    fold lk. rewrite E. now destruct (one native k).
  Qed.

  Lemma one_key : (forall p, In p (tpk nts) -> In p (map fst m)) -> forall k r k' r' fk, sized k r -> sized k' r' ->
    refers nts fts m k r fk -> refers nts fts m k' r' fk -> map canon (key_cells k) = map canon (key_cells k').
  Proof.
    intros Hall k r k' r' fk S1 S2 R1 R2. eapply rest_injective; eauto.
    rewrite !rest_cells by (apply S1 || apply S2). replace (new_pk nts m) with (@nil string); [reflexivity |].
    symmetry. unfold new_pk. rewrite <- (filter_false (tpk nts)). apply filter_ext_in. intros p Hp.
    apply negb_false_iff. apply mem_str_iff. auto.
  Qed.

  (** Every foreign row is linked to the one row that refers to it, if any. *)
  Theorem one_links_exact : forall native foreign, keyed_ok nts native -> keyed_ok fts foreign ->
    (forall p, In p (tpk nts) -> In p (map fst m)) ->
    exists links, make_one_links nts fts m native foreign = Some links /\ map fst links = map fst foreign /\
      forall fk o, In (fk, o) links ->
        match o with
        | Some r => exists k, In (k, r) native /\ refers nts fts m k r fk /\
            forall k' r', In (k', r') native -> refers nts fts m k' r' fk -> (k', r') = (k, r)
        | None => forall k r, In (k, r) native -> ~ refers nts fts m k r fk
        end.
  Proof.
    intros native foreign Hnat Hfor Hall.
    assert (forall k r, In (k, r) native -> sized k r) as Hsz.
    { intros k r Hin. destruct Hnat as [_ Hrows]. destruct (Hrows _ _ Hin) as [A B].
      apply key_ok_cells in A as [A _]; auto. now split. }
    assert (forall k r k' r' fk, In (k, r) native -> In (k', r') native ->
      refers nts fts m k r fk -> refers nts fts m k' r' fk -> canon_key k = canon_key k') as Hsame.
    { intros k r k' r' fk I1 I2 R1 R2. destruct Hnat as [_ Hrows].
      pose proof (one_key Hall k r k' r' fk (Hsz _ _ I1) (Hsz _ _ I2) R1 R2) as Ec.
      destruct (Hrows _ _ I1) as [K1 _]. destruct (Hrows _ _ I2) as [K2 _].
      apply key_ok_cells in K1 as [_ P1], K2 as [_ P2]; auto. apply pack_eq in Ec. rewrite P1, P2 in Ec.
      now apply pkey_eqb_iff. }
    exists (state1 native foreign). split; [| split].
    - unfold make_one_links.
      assert (map (fun kr : pkey * row => (fst kr, @None row)) foreign = state1 [] foreign) as -> by reflexivity.
      assert (forall rest done, done ++ rest = native ->
        fold_left (one_step nts fts m) rest (Some (state1 done foreign)) = Some (state1 native foreign)) as H; [| apply H; reflexivity].
      induction rest as [| kr rest IH]; intros done E; [rewrite app_nil_r in E; now subst |].
      cbn [fold_left]. assert (done ++ [kr] ++ rest = native) as E' by exact E. rewrite app_assoc in E'.
      rewrite <- (IH _ E'). f_equal. unfold one_step.
      destruct (dget pkey_eqb (state1 done foreign) (link_lookup nts fts m (fst kr) (snd kr))) as [[r0 |] |] eqn:Ed.
      3:{ now rewrite (state1_skip done kr). }
      2:{ rewrite (state1_set done kr); auto. apply Hfor. }
      exfalso. apply dget_In in Ed as (fk & Ef & Hin). unfold state1 in Hin. apply in_map_iff in Hin as ([fk' fr] & Eq & Hin).
      cbn [fst] in Eq. injection Eq as -> Eq. unfold one in Eq. destruct (find _ done) as [[k' r'] |] eqn:Eo; [| discriminate].
      injection Eq as Eq. cbn [snd] in Eq. subst r'. apply find_some in Eo as [Ho1 Ho2]. cbn [fst snd] in Ho2.
      destruct kr as [k r]. cbn [fst snd] in *.
      assert (In (k, r) native) as I1 by (rewrite <- E; apply in_app_iff; simpl; auto).
      assert (In (k', r0) native) as I2 by (rewrite <- E; apply in_app_iff; simpl; auto).
      assert (key_ok fts fk = true) as Hfok by (eapply Hfor; eauto).
      assert (canon_key k' = canon_key k) as Ec.
      { eapply (Hsame k' r0 k r fk); auto; apply lookup_refers; auto. }
      destruct Hnat as [Hk _]. rewrite <- E in Hk. unfold no_equal_keys in Hk. rewrite map_app, map_app in Hk.
      apply (NoDup_app_disj _ _ (canon_key k) Hk); [| simpl; auto]. rewrite <- Ec. apply in_map.
      now apply (in_map fst) in Ho1.
    - unfold state1. rewrite map_map. reflexivity.
    - intros fk o Hin. unfold state1 in Hin. apply in_map_iff in Hin as ([fk' fr] & E & Hin). cbn [fst] in E. injection E as -> <-.
      assert (key_ok fts fk = true) as Hfok by (eapply Hfor; eauto). unfold one.
      destruct (find _ native) as [[k r] |] eqn:Eo; cbn [option_map snd].
      + apply find_some in Eo as [Ho1 Ho2]. cbn [fst snd] in Ho2. apply lookup_refers in Ho2; auto. exists k.
        split; auto. split; auto. intros k' r' Hin' Href.
        pose proof (Hsame _ _ _ _ _ Hin' Ho1 Href Ho2) as Ec.
        destruct Hnat as [Hk _]. clear - Ho1 Hin' Ec Hk. unfold no_equal_keys in Hk.
        induction native as [| [k0 r0] l IH]; [contradiction |]. cbn [map fst] in Hk. inversion Hk as [| ? ? N1 N2]; subst.
        destruct Ho1 as [E1 | Ho1], Hin' as [E2 | Hin']; auto; try congruence.
        * exfalso. injection E1 as -> ->. apply N1. rewrite <- Ec. apply in_map. now apply (in_map fst) in Hin'.
        * exfalso. injection E2 as -> ->. apply N1. rewrite Ec. apply in_map. now apply (in_map fst) in Ho1.
      + intros k r Hin' Href. apply lookup_refers in Href; auto. pose proof (find_none _ _ Eo _ Hin') as Hx. cbn [fst snd] in Hx.
        congruence.
  Qed.
End L.
