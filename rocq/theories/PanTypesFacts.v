(** * PanDat data type failures: specification and correctness. *)
From Coq Require Import ZArith Bool List String Arith Lia.
From Verif Require Import PyVal PyValFacts PyDict PyDictFacts ListFacts TypeDict Data FindTypes FindTypesFacts
  FK PanFKFacts PanTypes.
Import ListNotations.

(** ** Specification *)

(** The cell of row [i], field [f] of table [t] holds [v]. *)
Definition pan_cell (sch : schema) (d : pdat) (t f : string) (i : nat) (v : value) : Prop :=
  exists ts r j, In (t, ts) sch /\ nth_error (d t) i = Some r /\
    nth_error (tpk ts ++ tdf ts) j = Some f /\ nth_error r j = Some v.

(** That cell is not accepted by the type enforced on its column. *)
Definition pan_failing (parses : value -> bool) (sch : schema) (tys : types) (d : pdat)
  (t f : string) (i : nat) (v : value) : Prop :=
  pan_cell sch d t f i v /\ exists dt, enforced sch tys t f dt /\ valid_data parses dt v = false.

(** Row [i] is flagged for (t, f). *)
Definition pan_flagged (rep : pflags) (t f : string) (i : nat) : Prop :=
  exists fl, In ((t, f), fl) rep /\ nth_error fl i = Some true.

Definition total_flags (rep : pflags) : nat :=
  list_sum (map (fun e => count_occ Bool.bool_dec (snd e) true) rep).

(** What the documentation promises to put into bad cells of (t, f): the given
    replacement, else the default value. *)
Definition pan_replacement (dv : defaults) (rv : replacements) (t f : string) (x : value) : Prop :=
  dget tf_eqb rv (t, f) = Some x \/ (dget tf_eqb rv (t, f) = None /\ dget2 dv t f = Some x).

(** ** Cells *)

Lemma valid_denull : forall parses dt v, valid_data parses dt (if is_null v then VNone else v) = valid_data parses dt v.
Proof. intros parses dt v. destruct v; reflexivity. Qed.

Lemma pan_bad_iff : forall parses dt v, pan_bad parses dt v = true <-> valid_data parses dt v = false.
Proof. intros. unfold pan_bad. rewrite valid_denull. apply negb_true_iff. Qed.

Lemma pcell_nth : forall ts r j f v, NoDup (tfields ts) -> nth_error (tfields ts) j = Some f ->
  nth_error r j = Some v -> pcell ts r f = v.
Proof. intros. unfold pcell, dget_or. now erewrite dget_combine; eauto. Qed.

Lemma wf_fields : forall sch t ts, wf_schema sch -> In (t, ts) sch -> NoDup (tfields ts).
Proof. intros sch t ts [_ H] Hin. apply H in Hin. exact Hin. Qed.

Lemma pan_cell_pcell : forall sch d t f i v ts r, wf_schema sch -> In (t, ts) sch ->
  nth_error (d t) i = Some r -> pan_cell sch d t f i v -> pcell ts r f = v.
Proof.
  intros sch d t f i v ts r Hs Hin Hr (ts' & r' & j & H1 & H2 & H3 & H4).
  assert (ts' = ts) as -> by (rewrite <- (ts_of_In _ _ _ Hs H1); now rewrite (ts_of_In _ _ _ Hs Hin)).
  rewrite Hr in H2. injection H2 as <-. eapply pcell_nth; eauto. eapply wf_fields; eauto.
Qed.

Lemma pan_cell_of : forall sch d t f i ts r, wf_schema sch -> wf_pdat sch d -> In (t, ts) sch ->
  nth_error (d t) i = Some r -> In f (tfields ts) -> pan_cell sch d t f i (pcell ts r f).
Proof.
  intros sch d t f i ts r Hs Hd Hin Hr Hf. apply In_nth_error in Hf as (j & Hj).
  pose proof (Hd _ _ r Hin (nth_error_In _ _ Hr)) as Hl.
  destruct (nth_error_ex r j) as (v & Hv).
  { rewrite Hl. eapply nth_error_Some_lt; eauto. }
  exists ts, r, j. repeat split; auto.
  rewrite (pcell_nth ts r j f v); auto. eapply wf_fields; eauto.
Qed.

(** ** The list of typed fields *)

Lemma typed_In : forall tys t f dt,
  In ((t, f), dt) (typed tys) <-> exists fs, In (t, fs) tys /\ In (f, dt) fs.
Proof.
  intros tys t f dt. unfold typed. rewrite in_flat_map. split.
  - intros ([t0 fs] & Hin & H). apply in_map_iff in H as ([f0 dt0] & E & H). injection E as <- <- <-. eauto.
  - intros (fs & Hin & H). exists (t, fs). split; auto. apply in_map_iff. exists (f, dt). auto.
Qed.

Lemma typed_NoDup : forall tys, wf2 tys -> NoDup (map fst (typed tys)).
Proof.
  intros tys [H1 H2]. induction tys as [| [t fs] tys IH]; simpl; [constructor |].
  rewrite map_app, map_map. simpl. inversion H1 as [| a b Ha Hb]; subst. apply NoDup_app_intro.
  - assert (NoDup (map fst fs)) as Hn by (eapply H2; left; eauto). clear -Hn.
    induction fs as [| [f dt] fs IH]; simpl in *; constructor; inversion Hn; subst; auto.
    intros Hin. apply H1. apply in_map_iff in Hin as ([f' dt'] & E & Hin). injection E as ->.
    now apply (in_map fst) in Hin.
  - apply IH; auto. intros t' fs' Hin. eapply H2. right. eauto.
  - intros [t0 f0] Hx Hy. apply in_map_iff in Hx as ([f' dt'] & E & _). injection E as <- <-.
    apply in_map_iff in Hy as ([[t1 f1] dt1] & E & Hy). simpl in E. injection E as -> ->.
    apply typed_In in Hy as (fs1 & Hy & _). apply Ha. now apply (in_map fst) in Hy.
Qed.

Lemma typed_enforced : forall sch tys t f dt, wf_types sch tys ->
  (In ((t, f), dt) (typed (tmp_types sch tys)) <-> enforced sch tys t f dt).
Proof. intros. rewrite typed_In. now apply tmp_types_In. Qed.

Lemma enforced_field : forall sch tys t f dt, wf_types sch tys -> enforced sch tys t f dt ->
  exists ts, In (t, ts) sch /\ In f (tfields ts).
Proof.
  intros sch tys t f dt [_ Ht] [(fs & Hin & Hf) | (_ & (ts & Hin & Hf) & _)].
  - destruct (Ht _ _ Hin) as (_ & ts & Hts & Hall). exists ts. split; [exact Hts | exact (Hall _ _ Hf)].
  - exists ts. split; auto. apply in_app_iff. auto.
Qed.

(** ** Finding *)

Section Find.
  Variable parses : value -> bool.

  Definition col (sch : schema) (d : pdat) (tf : string * string) : list value :=
    map (fun r => pcell (ts_of sch (fst tf)) r (snd tf)) (d (fst tf)).

  Definition all_flags (sch : schema) (d : pdat) (e : (string * string) * dtype) : list bool :=
    map (pan_bad parses (snd e)) (col sch d (fst e)).

  Definition nonempty_flags (l : pflags) : pflags := filter (fun e => existsb (fun b => b) (snd e)) l.

  Lemma bad_rows_inf : forall dt cells c, bad_rows parses PInf dt cells c = (map (pan_bad parses dt) cells, c).
  Proof. induction cells as [| v cells IH]; intros c; cbn [bad_rows map]; auto. simpl. now rewrite IH. Qed.

  Lemma find_loop_inf : forall sch d l c,
    pan_find_loop parses sch l d PInf c = nonempty_flags (map (fun e => (fst e, all_flags sch d e)) l).
  Proof.
    intros sch d. induction l as [| [tf dt] l IH]; intros c; auto. cbn [pan_find_loop].
    rewrite bad_rows_inf. change (num_leb PInf (of_int (Z.of_nat c))) with false.
    rewrite IH. unfold nonempty_flags. cbn [map filter]. unfold all_flags at 2, col. simpl. reflexivity.
  Qed.

  Lemma bad_rows_bound : forall mx n dt cells c, rounds_up mx n -> c <= n ->
    bad_rows parses mx dt cells c =
    (keep_trues (n - c) (map (pan_bad parses dt) cells),
     Nat.min n (c + count_occ Bool.bool_dec (map (pan_bad parses dt) cells) true)).
  Proof.
    intros mx n dt cells c Hr. destruct Hr as [Hr1 Hr2]. revert c.
    assert (num_ltb mx PInf = true) as Hlt by (destruct mx; auto; discriminate Hr1).
    induction cells as [| v cells IH]; intros c Hc; cbn [bad_rows map].
    - simpl. f_equal. lia.
    - rewrite Hlt. destruct (num_leb mx (of_int (Z.of_nat c))) eqn:E.
      + apply Hr2 in E. assert (c = n) as -> by lia. rewrite IH by lia.
        rewrite Nat.sub_diag. cbn [count_occ]. destruct (pan_bad parses dt v); cbn [keep_trues]; f_equal;
        destruct (Bool.bool_dec _ _); lia.
      + assert (c < n) as Hlt2.
        { destruct (Nat.lt_ge_cases c n) as [H | H]; auto.
          apply (num_leb_of_int_mono _ _ _ H) in Hr1. congruence. }
        destruct (pan_bad parses dt v); rewrite IH by lia; cbn [keep_trues].
        * replace (n - c) with (S (n - S c)) by lia. f_equal. simpl. lia.
        * f_equal.
  Qed.

  Lemma total_nonempty : forall l, total_flags (nonempty_flags l) = total_flags l.
  Proof.
    unfold total_flags, nonempty_flags. induction l as [| [tf fl] l IH]; simpl; auto.
    destruct (existsb (fun b => b) fl) eqn:E; simpl; rewrite IH; auto.
    now rewrite (count_occ_existsb _ E).
  Qed.

  Lemma flagged_nonempty : forall l t f i, pan_flagged (nonempty_flags l) t f i <-> pan_flagged l t f i.
  Proof.
    intros l t f i. unfold pan_flagged, nonempty_flags. split.
    - intros (fl & H1 & H2). apply filter_In in H1 as [H1 _]. eauto.
    - intros (fl & H1 & H2). exists fl. split; auto. apply filter_In. split; auto. simpl.
      apply existsb_exists. exists true. split; auto. eapply nth_error_In; eauto.
  Qed.

  Definition full (sch : schema) (d : pdat) (l : list ((string * string) * dtype)) : pflags :=
    map (fun e => (fst e, all_flags sch d e)) l.

  Lemma flagged_cons : forall (e : (string * string) * list bool) l t f i,
    pan_flagged (e :: l) t f i <-> (fst e = (t, f) /\ nth_error (snd e) i = Some true) \/ pan_flagged l t f i.
  Proof.
    intros [tf fl] l t f i. unfold pan_flagged. simpl. split.
    - intros (fl' & [H1 | H1] & H2); [injection H1 as -> ->; auto | right; eauto].
    - intros [[-> H] | (fl' & H1 & H2)]; eauto.
  Qed.

  Lemma flagged_opt : forall tf fl (l : pflags) t f i,
    pan_flagged (if existsb (fun b => b) fl then (tf, fl) :: l else l) t f i <->
    (tf = (t, f) /\ nth_error fl i = Some true) \/ pan_flagged l t f i.
  Proof.
    intros tf fl l t f i. destruct (existsb (fun b => b) fl) eqn:E.
    - now rewrite flagged_cons.
    - split; auto. intros [[-> H] | H]; auto. apply nth_error_In in H.
      assert (existsb (fun b => b) fl = true) as E2 by (apply existsb_exists; eauto). congruence.
  Qed.

  Lemma total_opt : forall tf fl (l : pflags),
    total_flags (if existsb (fun b => b) fl then (tf, fl) :: l else l) =
    count_occ Bool.bool_dec fl true + total_flags l.
  Proof.
    intros tf fl l. destruct (existsb (fun b => b) fl) eqn:E; auto. now rewrite (count_occ_existsb _ E).
  Qed.

  Lemma find_loop_bound : forall sch d mx n l c, rounds_up mx n -> c <= n -> 
    total_flags (pan_find_loop parses sch l d mx c) = Nat.min (n - c) (total_flags (full sch d l)) /\
    (forall t f i, pan_flagged (pan_find_loop parses sch l d mx c) t f i -> pan_flagged (full sch d l) t f i) /\
    (forall e, In e (pan_find_loop parses sch l d mx c) ->
       List.length (snd e) = List.length (d (fst (fst e))) /\ existsb (fun b => b) (snd e) = true).
  Proof.
    intros sch d mx n l. induction l as [| [tf dt] l IH]; intros c Hr Hc.
    - split; [unfold total_flags; simpl; lia |]. split; [intros t f i (? & [] & _) | intros e []].
    - cbn [pan_find_loop]. rewrite (bad_rows_bound mx n) by auto.
      change (map (fun r => pcell (ts_of sch (fst tf)) r (snd tf)) (d (fst tf))) with (col sch d tf).
      change (map (pan_bad parses dt) (col sch d tf)) with (all_flags sch d (tf, dt)).
      set (fl := all_flags sch d (tf, dt)). set (c' := Nat.min n (c + count_occ Bool.bool_dec fl true)).
      assert (List.length fl = List.length (d (fst tf))) as Hfl by (unfold fl, all_flags, col; now rewrite !map_length).
      assert (forall k, List.length (keep_trues k fl) = List.length fl) as Hk.
      { clear. intros k. revert k. induction fl as [| [] fl IH]; intros k; simpl; auto. destruct k; simpl; auto. }
      change (full sch d ((tf, dt) :: l)) with ((tf, fl) :: full sch d l).
      rewrite total_opt, keep_trues_count.
      change (total_flags ((tf, fl) :: full sch d l)) with
        (count_occ Bool.bool_dec fl true + total_flags (full sch d l)).
      split; [| split].
      + destruct (num_leb mx (of_int (Z.of_nat c'))) eqn:E.
        * apply (proj2 Hr) in E. unfold c' in E. unfold total_flags at 1. simpl. lia.
        * destruct (IH c' Hr ltac:(unfold c'; lia)) as [-> _]. unfold c'. lia.
      + intros t f i H. apply flagged_opt in H as [[H1 H2] | H].
        * apply flagged_cons. left. simpl. split; auto. eapply keep_trues_incl; eauto.
        * apply flagged_cons. right. destruct (num_leb mx (of_int (Z.of_nat c'))).
          -- destruct H as (? & [] & _).
          -- exact (proj1 (proj2 (IH c' Hr ltac:(unfold c'; lia))) t f i H).
      + intros e He.
        assert (In e (if num_leb mx (of_int (Z.of_nat c')) then [] else pan_find_loop parses sch l d mx c') \/
                (existsb (fun b => b) (keep_trues (n - c) fl) = true /\ e = (tf, keep_trues (n - c) fl))) as [H | [H ->]].
        { destruct (existsb (fun b => b) (keep_trues (n - c) fl)); auto. destruct He; auto. }
        * destruct (num_leb mx (of_int (Z.of_nat c'))); [destruct H |]. apply (proj2 (proj2 (IH c' Hr ltac:(unfold c'; lia)))). exact H.
        * simpl. rewrite Hk, Hfl. auto.
  Qed.

  Lemma full_flagged : forall sch tys d t f i, wf_schema sch -> wf_types sch tys -> wf_pdat sch d ->
    (pan_flagged (full sch d (typed (tmp_types sch tys))) t f i <-> exists v, pan_failing parses sch tys d t f i v).
  Proof.
    intros sch tys d t f i Hs Ht Hd. split.
    - intros (fl & H1 & H2). apply in_map_iff in H1 as ([[t0 f0] dt] & E & Hin).
      simpl in E. injection E as -> -> <-.
      apply typed_enforced in Hin; auto. destruct (enforced_field _ _ _ _ _ Ht Hin) as (ts & Hts & Hf).
      unfold all_flags, col in H2. simpl in H2. rewrite map_map in H2.
      rewrite nth_error_map in H2. destruct (nth_error (d t) i) as [r |] eqn:Hr; [| discriminate].
      simpl in H2. injection H2 as H2. rewrite (ts_of_In _ _ _ Hs Hts) in H2. apply pan_bad_iff in H2.
      exists (pcell ts r f). split; [now apply pan_cell_of |]. eauto.
    - intros (v & Hc & dt & He & Hv). destruct (enforced_field _ _ _ _ _ Ht He) as (ts & Hts & Hf).
      pose proof Hc as (ts' & r & j & H1 & Hr & _).
      pose proof (pan_cell_pcell _ _ _ _ _ _ _ _ Hs Hts Hr Hc) as Hp.
      exists (all_flags sch d ((t, f), dt)). split.
      + apply in_map_iff. exists ((t, f), dt). split; auto. now apply typed_enforced.
      + unfold all_flags, col. simpl. rewrite map_map, nth_error_map, Hr. simpl.
        rewrite (ts_of_In _ _ _ Hs Hts), Hp. f_equal. now apply pan_bad_iff.
  Qed.

  Theorem pan_find_exact_types : forall sch tys d rep, wf_schema sch -> wf_types sch tys -> wf_pdat sch d ->
    pan_find_types parses sch tys d PInf = Some rep ->
    NoDup (map fst rep) /\
    (forall t f fl, In ((t, f), fl) rep -> List.length fl = List.length (d t) /\ In true fl) /\
    (forall t f i, pan_flagged rep t f i <-> exists v, pan_failing parses sch tys d t f i v).
  Proof.
    intros sch tys d rep Hs Ht Hd H. unfold pan_find_types in H. simpl in H. injection H as <-.
    rewrite find_loop_inf. fold (full sch d (typed (tmp_types sch tys))). split; [| split].
    - unfold nonempty_flags, full.
      assert (NoDup (map fst (map (fun e => (fst e, all_flags sch d e)) (typed (tmp_types sch tys))))) as Hn.
      { rewrite map_map. simpl. apply typed_NoDup. eapply tmp_types_wf2; eauto. }
      revert Hn. generalize (map (fun e => (fst e, all_flags sch d e)) (typed (tmp_types sch tys))) as l.
      induction l as [| e l IH]; simpl; intros Hn; [constructor |]. inversion Hn; subst.
      destruct (existsb (fun b => b) (snd e)); auto. simpl. constructor; auto.
      intros Hin. apply H1. apply in_map_iff in Hin as (e' & E & Hin). apply filter_In in Hin as [Hin _].
      rewrite <- E. now apply in_map.
    - intros t f fl Hin. apply filter_In in Hin as [Hin E]. simpl in E. split.
      + apply in_map_iff in Hin as ([[t0 f0] dt] & E2 & _). injection E2 as -> -> <-.
        unfold all_flags, col. now rewrite !map_length.
      + apply existsb_exists in E as (b & Hb & ->). exact Hb.
    - intros t f i. rewrite flagged_nonempty. now apply full_flagged.
  Qed.

  Theorem pan_find_bound_types : forall sch tys d rep repm mx n, 
    num_ltb (of_int 0) mx = true -> rounds_up mx n ->
    pan_find_types parses sch tys d PInf = Some rep ->
    pan_find_types parses sch tys d mx = Some repm ->
    total_flags repm = Nat.min n (total_flags rep) /\
    (forall t f i, pan_flagged repm t f i -> pan_flagged rep t f i) /\
    (forall t f fl, In ((t, f), fl) repm -> List.length fl = List.length (d t) /\ In true fl).
  Proof.
    intros sch tys d rep repm mx n Hpos Hr H1 H2. unfold pan_find_types in *. rewrite Hpos in H2.
    simpl in H1. injection H1 as <-. injection H2 as <-. rewrite find_loop_inf.
    fold (full sch d (typed (tmp_types sch tys))).
    destruct (find_loop_bound sch d mx n (typed (tmp_types sch tys)) 0 Hr ltac:(lia)) as (A & B & C).
    rewrite Nat.sub_0_r in A. rewrite total_nonempty. split; auto. split.
    - intros t f i H. apply flagged_nonempty. auto.
    - intros t f fl Hin. apply C in Hin as [E1 E2]. split; auto.
      apply existsb_exists in E2 as (b & Hb & ->). exact Hb.
  Qed.

  (** ** Replacing *)

  Definition map_row (ts : tschema) (g : string -> value -> value) (r : row) : row :=
    map (fun fv => g (fst fv) (snd fv)) (combine (tfields ts) r).

  Lemma combine_map_r {A B C} (h : A * B -> C) : forall (a : list A) (b : list B),
    combine a (map h (combine a b)) = map (fun x => (fst x, h x)) (combine a b).
  Proof. induction a as [| x a IH]; intros [| y b]; simpl; auto. now rewrite IH. Qed.

  Lemma map_row_comp : forall ts g1 g2 r,
    map_row ts g2 (map_row ts g1 r) = map_row ts (fun f v => g2 f (g1 f v)) r.
  Proof. intros. unfold map_row. rewrite combine_map_r, map_map. apply map_ext. now intros [f v]. Qed.

  Lemma map_row_length : forall ts g r, List.length r = List.length (tfields ts) ->
    List.length (map_row ts g r) = List.length (tfields ts).
  Proof. intros. unfold map_row. rewrite map_length, combine_length. lia. Qed.

  Lemma map_row_ext : forall ts g1 g2 r,
    (forall f v, In (f, v) (combine (tfields ts) r) -> g1 f v = g2 f v) -> map_row ts g1 r = map_row ts g2 r.
  Proof. intros ts g1 g2 r H. unfold map_row. apply map_ext_in. intros [f v]. apply H. Qed.

  Lemma map_row_id : forall ts r, List.length r = List.length (tfields ts) -> map_row ts (fun _ v => v) r = r.
  Proof. intros. unfold map_row. now apply map_snd_combine. Qed.

  Lemma map_row_nth : forall ts g r j f v, nth_error (tfields ts) j = Some f -> nth_error r j = Some v ->
    nth_error (map_row ts g r) j = Some (g f v).
  Proof.
    intros ts g r j f v H1 H2. unfold map_row. rewrite nth_error_map, (nth_error_combine _ _ _ _ _ H1 H2). reflexivity.
  Qed.

  Lemma in_combine_pcell : forall ts r f v, NoDup (tfields ts) -> In (f, v) (combine (tfields ts) r) -> pcell ts r f = v.
  Proof.
    intros ts r f v Hn Hin. apply In_nth_error in Hin as (j & Hj).
    apply nth_error_combine_inv in Hj as [H1 H2]. eapply pcell_nth; eauto.
  Qed.

  Definition fix_cell (tys : types) (rr : replacements) (t f : string) (v : value) : value :=
    match dget tf_eqb rr (t, f), dget2 tys t f with
    | Some x, Some dt => if pan_bad parses dt v then x else v
    | _, _ => v
    end.

  Definition in_keys (l : pflags) (t f : string) : bool :=
    existsb (fun e => tf_eqb (fst e) (t, f)) l.

  Lemma upd_p_get : forall d t rows t', upd_p d t rows t' = if String.eqb t t' then rows else d t'.
  Proof. reflexivity. Qed.

  Lemma apply_spec : forall sch tys rr needed d, wf_schema sch -> NoDup (map fst needed) ->
    wf_pdat sch d -> forall t ts, In (t, ts) sch ->
    pan_apply parses sch tys needed rr d t =
    map (map_row ts (fun f v => if in_keys needed t f then fix_cell tys rr t f v else v)) (d t).
  Proof.
    intros sch tys rr needed. induction needed as [| [[t0 f0] fl] needed IH]; intros d Hs Hn Hd t ts Hts.
    - simpl. symmetry. rewrite <- (map_id (d t)) at 2. apply map_ext_in. intros r Hr.
      apply map_row_id. now apply (Hd t ts r).
    - inversion Hn as [| a b Hni Hn']; subst. unfold pan_apply. cbn [fold_left fst snd].
      set (d1 := match dget tf_eqb rr (t0, f0) with
                 | Some x => match dget2 tys t0 f0 with
                             | Some dt => upd_p d t0 (map (fun r => if pan_bad parses dt (pcell (ts_of sch t0) r f0)
                                 then set_nth_cell (tfields (ts_of sch t0)) r f0 x else r) (d t0))
                             | None => d end
                 | None => d end).
      fold (pan_apply parses sch tys needed rr d1).
      assert (forall t ts, In (t, ts) sch -> d1 t =
        map (map_row ts (fun f v => if tf_eqb (t0, f0) (t, f) then fix_cell tys rr t f v else v)) (d t)) as H1.
      { clear t ts Hts. intros t ts Hts.
        assert (forall r, In r (d t) -> r = map_row ts (fun f v => v) r) as Hid.
        { intros r Hr. symmetry. apply map_row_id. now apply (Hd t ts r). }
        destruct (String.eqb t0 t) eqn:E.
        - apply String.eqb_eq in E. subst t0.
          unfold fix_cell. unfold d1.
          transitivity (map (fun r => match dget tf_eqb rr (t, f0), dget2 tys t f0 with
             | Some x, Some dt => if pan_bad parses dt (pcell ts r f0) then set_nth_cell (tfields ts) r f0 x else r
             | _, _ => r end) (d t)).
          { destruct (dget tf_eqb rr (t, f0)); [| now rewrite map_id].
            destruct (dget2 tys t f0); [| now rewrite map_id].
            rewrite upd_p_get, String.eqb_refl. apply map_ext. intros r. now rewrite (ts_of_In _ _ _ Hs Hts). }
          apply map_ext_in. intros r Hr. specialize (Hid r Hr).
          destruct (dget tf_eqb rr (t, f0)) as [x |] eqn:E1;
            [destruct (dget2 tys t f0) as [dt |] eqn:E2 |].
          + destruct (pan_bad parses dt (pcell ts r f0)) eqn:Eb.
            * unfold set_nth_cell, map_row. apply map_ext_in. intros [f v] Hin. simpl.
              apply in_combine_pcell in Hin; [| eapply wf_fields; eauto].
              unfold tf_eqb at 1. simpl. rewrite String.eqb_refl, String.eqb_sym. simpl.
              destruct (String.eqb f0 f) eqn:Ef; auto. apply String.eqb_eq in Ef. subst f.
              rewrite E1, E2. now rewrite <- Hin, Eb.
            * rewrite Hid at 1. apply map_row_ext. intros f v Hin.
              apply in_combine_pcell in Hin; [| eapply wf_fields; eauto].
              unfold tf_eqb at 1. simpl. rewrite String.eqb_refl. simpl.
              destruct (String.eqb f0 f) eqn:Ef; auto. apply String.eqb_eq in Ef. subst f.
              rewrite E1, E2. now rewrite <- Hin, Eb.
          + rewrite Hid at 1. apply map_row_ext. intros f v Hin.
            destruct (tf_eqb (t, f0) (t, f)) eqn:Ef; auto. apply tf_eqb_eq in Ef. injection Ef as <-.
            now rewrite E1, E2.
          + rewrite Hid at 1. apply map_row_ext. intros f v Hin.
            destruct (tf_eqb (t, f0) (t, f)) eqn:Ef; auto. apply tf_eqb_eq in Ef. injection Ef as <-.
            now rewrite E1.
        - assert (d1 t = d t) as ->.
          { unfold d1. destruct (dget tf_eqb rr (t0, f0)); auto. destruct (dget2 tys t0 f0); auto.
            now rewrite upd_p_get, E. }
          rewrite <- (map_id (d t)) at 1. apply map_ext_in. intros r Hr. rewrite (Hid r Hr) at 1.
          apply map_row_ext. intros f v _. unfold tf_eqb. simpl. now rewrite E. }
      assert (wf_pdat sch d1) as Hd1.
      { intros t' ts' r Hin Hr. rewrite (H1 _ _ Hin) in Hr. apply in_map_iff in Hr as (r0 & <- & Hr0).
        apply map_row_length. apply (Hd t' ts' r0 Hin Hr0). }
      rewrite (IH d1 Hs Hn' Hd1 t ts Hts), (H1 t ts Hts), map_map. apply map_ext. intros r.
      rewrite map_row_comp. apply map_row_ext. intros f v _. unfold in_keys. simpl.
      destruct (tf_eqb (t0, f0) (t, f)) eqn:E; auto.
      apply tf_eqb_eq in E. injection E as -> ->.
      assert (existsb (fun e => tf_eqb (fst e) (t, f)) needed = false) as ->; auto.
      apply not_true_is_false. intros Hx. apply existsb_exists in Hx as ([k fl'] & Hin & Hk).
      apply tf_eqb_eq in Hk. simpl in Hk. subst k. apply Hni. now apply (in_map fst) in Hin.
  Qed.

  (** ** The table of replacements *)

  Definition lookup (dv : defaults) (rv : replacements) (tf : string * string) : option value :=
    match dget2 dv (fst tf) (snd tf) with
    | None => None
    | Some dflt => Some (dget_or tf_eqb rv tf dflt)
    end.

  Lemma pan_real_spec : forall dv rv l acc,
    (pan_real l dv rv acc = None <->
       exists tf dt, In (tf, dt) l /\ dmem tf_eqb rv tf = true /\ dget2 dv (fst tf) (snd tf) = None) /\
    (forall rr, pan_real l dv rv acc = Some rr -> forall tf,
       dget tf_eqb rr tf =
       if existsb (fun e => tf_eqb (fst e) tf) l
       then match lookup dv rv tf with Some x => Some x | None => dget tf_eqb acc tf end
       else dget tf_eqb acc tf).
  Proof.
    intros dv rv. induction l as [| [tf0 dt0] l IH]; intros acc; cbn [pan_real existsb].
    - split.
      + split; [discriminate | intros (? & ? & [] & _)].
      + intros rr E tf. now injection E as <-.
    - destruct (dget2 dv (fst tf0) (snd tf0)) as [dflt |] eqn:Ed.
      + rewrite orb_true_r. destruct (IH (dset tf_eqb acc tf0 (dget_or tf_eqb rv tf0 dflt))) as [IH1 IH2]. split.
        * rewrite IH1. split.
          -- intros (tf & dt & Hin & H). exists tf, dt. split; auto. now right.
          -- intros (tf & dt & [Hin | Hin] & H1 & H2); eauto. injection Hin as -> ->. congruence.
        * intros rr E tf. rewrite (IH2 rr E tf).
          rewrite (dget_dset tf_eqb tf_eqb_refl tf_eqb_sym tf_eqb_trans). cbn [fst].
          destruct (tf_eqb tf0 tf) eqn:Et; simpl; auto.
          apply tf_eqb_eq in Et. subst tf0. unfold lookup. rewrite Ed.
          destruct (existsb (fun e => tf_eqb (fst e) tf) l); auto.
      + rewrite orb_false_r. destruct (dmem tf_eqb rv tf0) eqn:Em.
        * split; [| discriminate]. split; auto. intros _. exists tf0, dt0. split; auto. now left.
        * destruct (IH acc) as [IH1 IH2]. split.
          -- rewrite IH1. split.
             ++ intros (tf & dt & Hin & H). exists tf, dt. split; auto. now right.
             ++ intros (tf & dt & [Hin | Hin] & H1 & H2); eauto. injection Hin as -> ->. congruence.
          -- intros rr E tf. rewrite (IH2 rr E tf). cbn [fst].
             destruct (tf_eqb tf0 tf) eqn:Et; simpl; auto.
             apply tf_eqb_eq in Et. subst tf0. unfold lookup. rewrite Ed.
             now destruct (existsb (fun e => tf_eqb (fst e) tf) l).
  Qed.
End Find.
