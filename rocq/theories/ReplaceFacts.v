(** * Correctness of replace_data_type_failures. *)
From Coq Require Import ZArith Bool List String Arith Lia.
From Verif Require Import PyVal PyValFacts PyDict PyDictFacts ListFacts TypeDict TypeDictFacts Data FindTypes FindTypesFacts.
Import ListNotations.

(** ** Specification *)

(** Apply [g rowid field cell] to every data cell; keys, row order and row
    count are untouched. *)
Definition map_row (ts : tschema) (g : string -> value -> value) (r : row) : row :=
  map (fun fv => g (fst fv) (snd fv)) (combine (tdf ts) r).

Definition map_cells (ts : tschema) (g : rowid -> string -> value -> value) (tb : table) : table :=
  match tb with
  | Keyed l => Keyed (map (fun kr => (fst kr, map_row ts (g (RPk (fst kr))) (snd kr))) l)
  | Listed l => Listed (map (fun ir => map_row ts (g (RIdx (fst ir))) (snd ir)) (enum_from 0 l))
  end.

(** The replacement documented for (t, f): the one given, else the field's
    default value, else 0. *)
Definition replacement_for (dv : defaults) (rv : replacements) (t f : string) : value :=
  match dget tf_eqb rv (t, f) with
  | Some v => v
  | None => match dget2 dv t f with
            | Some v => v
            | None => VNum (of_int 0)
            end
  end.

(** The documented effect on one data cell. *)
Definition repair (parses : value -> bool) (tys : types) (dv : defaults) (rv : replacements)
  (t f : string) (v : value) : value :=
  match dget2 tys t f with
  | Some dt => if valid_data parses dt v then v else replacement_for dv rv t f
  | None => v
  end.

(** ** [map_cells] *)

Lemma map_row_length : forall ts g r,
  List.length r = List.length (tdf ts) -> List.length (map_row ts g r) = List.length (tdf ts).
Proof.
  intros ts g r H. unfold map_row. rewrite map_length, combine_length. lia.
Qed.

Lemma map_row_compose : forall ts g h r,
  List.length r = List.length (tdf ts) ->
  map_row ts g (map_row ts h r) = map_row ts (fun f v => g f (h f v)) r.
Proof.
  intros [pk fs] g h r. unfold map_row. simpl. revert r.
  induction fs as [| f fs IH]; intros [| v r] H; simpl in *; try discriminate; auto.
  f_equal. apply IH. congruence.
Qed.

Lemma map_row_ext : forall ts g h r,
  (forall f v, In (f, v) (combine (tdf ts) r) -> g f v = h f v) ->
  map_row ts g r = map_row ts h r.
Proof.
  intros ts g h r H. unfold map_row. apply map_ext_in. intros [f v] Hin. simpl. auto.
Qed.

Lemma map_row_id : forall ts r, List.length r = List.length (tdf ts) -> map_row ts (fun _ v => v) r = r.
Proof.
  intros ts r H. unfold map_row. rewrite <- (map_snd_combine (tdf ts) r) at 2; auto.
Qed.

Lemma wf_map_cells : forall ts g tb, wf_table ts tb -> wf_table ts (map_cells ts g tb).
Proof.
  intros ts g [l | l] H; simpl in *.
  - destruct H as (H1 & H2 & H3). repeat split; auto.
    + now rewrite map_map.
    + apply in_map_iff in H as ([k' r'] & E & Hin). simpl in E. injection E as <- <-.
      now apply H3 in Hin.
    + apply in_map_iff in H as ([k' r'] & E & Hin). simpl in E. injection E as <- <-.
      apply map_row_length. now apply H3 in Hin.
  - destruct H as (H1 & H2). split; auto. intros r Hin.
    apply in_map_iff in Hin as ([i r'] & <- & Hin). simpl. apply map_row_length.
    apply H2. apply In_enum_from in Hin as [_ Hin]. now apply nth_error_In in Hin.
Qed.

Lemma enum_from_map {A B} (h : nat * A -> B) : forall (l : list A) i,
  enum_from i (map h (enum_from i l)) = map (fun ix => (fst ix, h ix)) (enum_from i l).
Proof. induction l as [| x l IH]; intros i; simpl; auto. now rewrite IH. Qed.

Lemma map_cells_compose : forall ts g h tb, wf_table ts tb ->
  map_cells ts g (map_cells ts h tb) = map_cells ts (fun rid f v => g rid f (h rid f v)) tb.
Proof.
  intros ts g h [l | l] H; simpl in *.
  - destruct H as (_ & _ & H3). f_equal. rewrite map_map. apply map_ext_in.
    intros [k r] Hin. simpl. f_equal. apply map_row_compose. now apply H3 in Hin.
  - destruct H as (_ & H2). f_equal. rewrite enum_from_map, map_map. apply map_ext_in.
    intros [i r] Hin. simpl. apply map_row_compose. apply H2.
    apply In_enum_from in Hin as [_ Hin]. now apply nth_error_In in Hin.
Qed.

Lemma map_cells_ext : forall ts g h tb,
  (forall rid k r f v, row_in tb rid k r -> In (f, v) (combine (tdf ts) r) -> g rid f v = h rid f v) ->
  map_cells ts g tb = map_cells ts h tb.
Proof.
  intros ts g h [l | l] H; simpl in *; f_equal; apply map_ext_in.
  - intros [k r] Hin. simpl. f_equal. apply map_row_ext. intros f v Hf. eapply H; eauto.
  - intros [i r] Hin. simpl. apply map_row_ext. intros f v Hf.
    apply In_enum_from in Hin as [_ Hin]. rewrite Nat.sub_0_r in Hin. eapply H; eauto.
Qed.

Lemma map_snd_enum {A} : forall (l : list A) i, map snd (enum_from i l) = l.
Proof. induction l as [| x l IH]; intros i; simpl; auto. now rewrite IH. Qed.

Lemma map_cells_id : forall ts tb, wf_table ts tb -> map_cells ts (fun _ _ v => v) tb = tb.
Proof.
  intros ts [l | l] H; simpl in *; f_equal.
  - destruct H as (_ & _ & H3). rewrite <- (map_id l) at 2. apply map_ext_in.
    intros [k r] Hin. simpl. f_equal. apply map_row_id. now apply H3 in Hin.
  - destruct H as (_ & H2).
    rewrite <- (map_snd_enum l 0) at 2. apply map_ext_in. intros [i r] Hin. simpl.
    apply map_row_id. apply H2. apply In_enum_from in Hin as [_ Hin]. now apply nth_error_In in Hin.
Qed.

(** ** [set_cell] is a cell-wise map *)

Definition at_cell (rid : rowid) (f : string) (x : value) (rid' : rowid) (f' : string) (v0 : value) : value :=
  if rowid_pyeq rid' rid && String.eqb f' f then x else v0.

Lemma set_keyed_map : forall ts l k f x,
  distinct_keys (map fst l) ->
  (forall k r, In (k, r) l -> List.length r = List.length (tdf ts)) ->
  set_keyed ts l k f x =
  map (fun kr => (fst kr, map_row ts (at_cell (RPk k) f x (RPk (fst kr))) (snd kr))) l.
Proof.
  intros ts l k f x. unfold distinct_keys.
  induction l as [| [k0 r0] l IH]; intros Hd Hlen; simpl in *; auto.
  inversion Hd; subst.
  assert (forall kr, In kr l -> List.length (snd kr) = List.length (tdf ts)) as Hl.
  { intros [k1 r1] Hin. simpl. eauto. }
  destruct (key_pyeq k0 k) eqn:E.
  - f_equal.
    + f_equal. unfold set_nth_cell, map_row, at_cell. simpl. rewrite E. reflexivity.
    + symmetry. rewrite <- (map_id l) at 2. apply map_ext_in. intros [k1 r1] Hin. simpl. f_equal.
      rewrite <- (map_row_id ts r1) at 2 by eauto. apply map_row_ext. intros f' v' _.
      unfold at_cell. simpl.
      assert (key_pyeq k1 k = false) as ->; auto.
      apply key_pyeq_neq. intros E1. apply key_pyeq_iff in E. apply H1.
      rewrite E, <- E1. apply in_map. change k1 with (fst (k1, r1)). now apply in_map.
  - f_equal.
    + f_equal. rewrite <- (map_row_id ts r0) at 1 by eauto. apply map_row_ext. intros f' v' _.
      unfold at_cell. simpl. now rewrite E.
    + apply IH; eauto.
Qed.

Lemma set_listed_map : forall ts f x l i i0,
  (forall r, In r l -> List.length r = List.length (tdf ts)) ->
  set_listed ts l i f x =
  map (fun ir => map_row ts (at_cell (RIdx (i0 + i)) f x (RIdx (fst ir))) (snd ir)) (enum_from i0 l).
Proof.
  intros ts f x. induction l as [| r l IH]; intros i i0 Hlen; simpl; auto.
  destruct i as [| i]; f_equal.
  - unfold set_nth_cell, map_row, at_cell. simpl. rewrite Nat.add_0_r, Nat.eqb_refl. reflexivity.
  - symmetry. rewrite <- (map_snd_enum l (S i0)) at 2. apply map_ext_in. intros [j r'] Hin. simpl.
    rewrite <- (map_row_id ts r') at 2.
    + apply map_row_ext. intros f' v' _. unfold at_cell. simpl.
      apply In_enum_from in Hin as [Hj _].
      destruct (j =? i0 + 0) eqn:E; auto. apply Nat.eqb_eq in E. lia.
    + apply Hlen. right. apply In_enum_from in Hin as [_ Hin]. now apply nth_error_In in Hin.
  - rewrite <- (map_row_id ts r) at 1 by (apply Hlen; now left). apply map_row_ext. intros f' v' _.
    unfold at_cell. simpl. destruct (i0 =? i0 + S i) eqn:E; auto. apply Nat.eqb_eq in E. lia.
  - rewrite (IH i (S i0)) by (intros; apply Hlen; now right).
    now rewrite Nat.add_succ_comm.
Qed.

Lemma set_cell_map : forall ts tb rid f x, wf_table ts tb ->
  set_cell ts tb rid f x = map_cells ts (at_cell rid f x) tb.
Proof.
  intros ts [l | l] [k | i] f x H.
  - simpl. f_equal. apply set_keyed_map; [apply H |]. intros k' r Hin. now apply H in Hin.
  - rewrite <- (map_cells_id ts (Keyed l)) at 1 by auto. simpl. f_equal.
  - rewrite <- (map_cells_id ts (Listed l)) at 1 by auto. simpl. f_equal.
  - simpl. f_equal. rewrite (set_listed_map ts f x l i 0); auto. apply H.
Qed.

(** ** A sequence of edits *)

Definition edit : Type := ((string * string) * rowid * value)%type.

Definition edits (needed : treport) (rr : replacements) : list edit :=
  flat_map (fun e => match dget tf_eqb rr (fst e) with
                     | None => []
                     | Some v => map (fun rid => (fst e, rid, v)) (snd (snd e))
                     end) needed.

Definition edit_step (sch : schema) (d : dat) (e : edit) : dat :=
  let '(tf, rid, v) := e in
  upd_tbl d (fst tf) (set_cell (ts_of sch (fst tf)) (d (fst tf)) rid (snd tf) v).

Lemma apply_edits : forall sch d needed rr,
  apply_replacements sch d needed rr = fold_left (edit_step sch) (edits needed rr) d.
Proof.
  intros sch d needed rr. unfold apply_replacements, edits. rewrite <- fold_left_flat_map.
  apply fold_left_ext_in. intros d' e _. destruct (dget tf_eqb rr (fst e)); auto.
  now rewrite fold_left_map.
Qed.

Definition edit_cell (t : string) (rid : rowid) (f : string) (v0 : value) (e : edit) : value :=
  let '(tf, rid', x) := e in
  if String.eqb (fst tf) t then at_cell rid' (snd tf) x rid f v0 else v0.

Definition final_cell (eds : list edit) (t : string) (rid : rowid) (f : string) (v0 : value) : value :=
  fold_left (edit_cell t rid f) eds v0.

Lemma edit_step_wf : forall sch d e, wf_schema sch -> wf_dat sch d -> wf_dat sch (edit_step sch d e).
Proof.
  intros sch d [[[t f] rid] x] Hs Hd t' ts Hin. unfold edit_step, upd_tbl. simpl.
  destruct (String.eqb t t') eqn:E; auto. apply String.eqb_eq in E. subst t'.
  rewrite (ts_of_In _ _ _ Hs Hin), set_cell_map by auto. apply wf_map_cells. auto.
Qed.

Lemma fold_edits : forall sch eds d t ts,
  wf_schema sch -> wf_dat sch d -> In (t, ts) sch ->
  fold_left (edit_step sch) eds d t = map_cells ts (final_cell eds t) (d t).
Proof.
  intros sch. induction eds as [| e eds IH]; intros d t ts Hs Hd Hin; simpl.
  - unfold final_cell. simpl. symmetry. apply map_cells_id. auto.
  - rewrite (IH _ _ ts); auto using edit_step_wf.
    destruct e as [[[t0 f0] rid0] x]. unfold edit_step, upd_tbl. simpl.
    destruct (String.eqb t0 t) eqn:E.
    + apply String.eqb_eq in E. subst t0.
      rewrite (ts_of_In _ _ _ Hs Hin), set_cell_map, map_cells_compose by auto.
      apply map_cells_ext. intros rid k r f v _ _. unfold final_cell. simpl.
      now rewrite String.eqb_refl.
    + apply map_cells_ext. intros rid k r f v _ _. unfold final_cell. simpl. now rewrite E.
Qed.

Lemma fold_edits_other : forall sch eds d t,
  (forall e, In e eds -> fst (fst (fst e)) <> t) ->
  fold_left (edit_step sch) eds d t = d t.
Proof.
  intros sch. induction eds as [| e eds IH]; intros d t H; simpl; auto.
  rewrite IH by (intros; apply H; now right).
  destruct e as [[[t0 f0] rid0] x]. unfold edit_step, upd_tbl. simpl.
  destruct (String.eqb t0 t) eqn:E; auto. apply String.eqb_eq in E. subst.
  exfalso. apply (H ((t, f0), rid0, x)); [now left | auto].
Qed.

(** If all edits of (t, f) carry the same value, the order is irrelevant. *)
Lemma final_cell_uniform : forall eds t rid f v0 x,
  (forall tf rid' y, In (tf, rid', y) eds -> tf = (t, f) -> y = x) ->
  final_cell eds t rid f v0 =
  if existsb (fun e => tf_eqb (fst (fst e)) (t, f) && rowid_pyeq rid (snd (fst e))) eds then x else v0.
Proof.
  unfold final_cell. intros eds t rid f v0 x. revert v0.
  induction eds as [| [[[t0 f0] rid0] y] eds IH]; intros v0 H; simpl; auto.
  rewrite IH by (intros tf r z Hin E; apply (H tf r z); [now right | exact E]).
  unfold at_cell, tf_eqb. simpl.
  destruct (String.eqb t0 t) eqn:E1; simpl; auto.
  rewrite (String.eqb_sym f0 f).
  destruct (String.eqb f f0) eqn:E2; simpl.
  - rewrite andb_true_r. destruct (rowid_pyeq rid rid0) eqn:E3; simpl; auto.
    apply String.eqb_eq in E1, E2. subst.
    rewrite (H (t, f0) rid0 y (or_introl eq_refl) eq_refl).
    now destruct (existsb _ eds).
  - now rewrite andb_false_r.
Qed.

(** ** The replacement dictionary *)

Lemma fold_dset_get {V} (val : string * string -> V) : forall ks d k,
  dget tf_eqb (fold_left (fun acc k => dset tf_eqb acc k (val k)) ks d) k =
  if existsb (tf_eqb k) ks then Some (val k) else dget tf_eqb d k.
Proof.
  induction ks as [| k0 ks IH]; intros d k; simpl; auto.
  rewrite IH, (dget_dset tf_eqb tf_eqb_refl tf_eqb_sym tf_eqb_trans).
  rewrite (tf_eqb_sym k k0).
  destruct (existsb (tf_eqb k) ks); [now rewrite orb_true_r |]. rewrite orb_false_r.
  destruct (tf_eqb k0 k) eqn:E; auto. apply tf_eqb_eq in E. now subst.
Qed.

Definition repl_keys (sch : schema) (tys : types) : list (string * string) :=
  filter (fun tf => negb (existsb (String.eqb (snd tf)) (tpk (ts_of sch (fst tf)))))
    (flat_map (fun ttr => map (fun fdt => (fst ttr, fst fdt)) (snd ttr)) tys).

Lemma real_replacements_fold : forall sch tys dv rv,
  real_replacements sch tys dv rv =
  fold_left (fun acc k => dset tf_eqb acc k (replacement_for dv rv (fst k) (snd k))) (repl_keys sch tys) [].
Proof.
  intros sch tys dv rv.
  unfold real_replacements, repl_keys. rewrite <- fold_left_filter, <- fold_left_flat_map.
  apply fold_left_ext_in. intros acc [t0 fs] _. simpl. rewrite fold_left_map.
  apply fold_left_ext_in. intros acc' [f0 dt0] _. simpl.
  destruct (existsb (String.eqb f0) (tpk (ts_of sch t0))); reflexivity.
Qed.

Lemma fold_dset_distinct {V} (val : string * string -> V) : forall ks d,
  keys_distinct tf_eqb (map fst d) ->
  keys_distinct tf_eqb (map fst (fold_left (fun acc k => dset tf_eqb acc k (val k)) ks d)).
Proof.
  induction ks as [| k ks IH]; intros d H; simpl; auto. apply IH. now apply keys_distinct_dset.
Qed.

Lemma real_replacements_get : forall sch tys dv rv t f, wf_types sch tys ->
  dget tf_eqb (real_replacements sch tys dv rv) (t, f) =
  match dget2 tys t f with
  | Some _ => if existsb (String.eqb f) (tpk (ts_of sch t)) then None
              else Some (replacement_for dv rv t f)
  | None => None
  end.
Proof.
  intros sch tys dv rv t f Hwf. rewrite real_replacements_fold. set (ks := repl_keys sch tys).
  rewrite fold_dset_get. simpl.
  destruct (existsb (tf_eqb (t, f)) ks) eqn:E.
  - apply existsb_exists in E as (k & Hin & E). apply tf_eqb_eq in E. subst k.
    unfold ks, repl_keys in Hin. apply filter_In in Hin as [Hin E]. simpl in E. apply negb_true_iff in E.
    rewrite E. apply in_flat_map in Hin as ([t0 fs] & Hfs & Hin). simpl in Hin.
    apply in_map_iff in Hin as ([f0 dt0] & E0 & Hin). simpl in E0. injection E0 as -> ->.
    assert (dget2 tys t f = Some dt0) as ->; auto.
    apply (declared_dget2 _ _ _ _ _ Hwf). exists fs. auto.
  - destruct (dget2 tys t f) as [dt |] eqn:Eg; auto.
    destruct (existsb (String.eqb f) (tpk (ts_of sch t))) eqn:Ep; auto.
    exfalso. assert (existsb (tf_eqb (t, f)) ks = true) as H; [| congruence].
    apply existsb_exists. exists (t, f). split; [| apply tf_eqb_refl].
    unfold ks, repl_keys. apply filter_In. simpl. rewrite Ep. split; auto.
    apply (declared_dget2 _ _ _ _ _ Hwf) in Eg as (fs & H1 & H2).
    apply in_flat_map. exists (t, fs). split; auto. simpl.
    apply in_map_iff. exists (f, dt). auto.
Qed.

Lemma not_pk_of_data : forall sch t ts f, wf_schema sch -> In (t, ts) sch -> In f (tdf ts) ->
  existsb (String.eqb f) (tpk (ts_of sch t)) = false.
Proof.
  intros sch t ts f Hs Hin Hf. rewrite (ts_of_In _ _ _ Hs Hin).
  destruct (existsb (String.eqb f) (tpk ts)) eqn:E; auto. exfalso.
  apply existsb_string in E. apply (proj2 Hs) in Hin.
  eapply NoDup_app_disj; [exact Hin | exact E | exact Hf].
Qed.

(** ** Main results *)

Section Replace.
  Variable parses : value -> bool.

  Lemma data_cell_in : forall ts tb rid k r f v,
    wf_table ts tb -> row_in tb rid k r -> In (f, v) (combine (tdf ts) r) -> cell_in ts k r f v.
  Proof.
    intros ts tb rid k r f v Hwf Hrow Hin. apply In_nth_error in Hin as (i & Hi).
    apply nth_error_combine_inv in Hi as [H1 H2].
    exists (List.length (tpk ts) + i). rewrite nth_error_app2 by lia.
    replace (List.length (tpk ts) + i - List.length (tpk ts)) with i by lia. split; auto.
    assert (List.length k = List.length (tpk ts)) as Hk.
    { destruct tb; simpl in *.
      - destruct Hwf as (_ & _ & Hl). destruct Hrow as [Hrow _]. now apply Hl in Hrow.
      - destruct Hwf as [-> _]. now destruct Hrow as [-> _]. }
    rewrite nth_error_app2 by lia. now replace (List.length (tpk ts) + i - List.length k) with i by lia.
  Qed.

  Lemma row_in_canon : forall ts tb rid k r rid' k' r',
    wf_table ts tb -> row_in tb rid k r -> row_in tb rid' k' r' -> rowid_pyeq rid rid' = true ->
    rid = rid' /\ k = k' /\ r = r'.
  Proof.
    intros ts tb rid k r rid' k' r' Hwf H1 H2 E.
    pose proof (rows_of_NoDup _ _ Hwf) as Hnd.
    apply rowid_pyeq_iff in E. apply rows_of_In in H1, H2.
    pose proof (NoDup_map_inj_in _ _ _ _ Hnd H1 H2 E) as H. injection H. auto.
  Qed.

  Lemma cell_in_unique : forall ts k r f v v', wf_tschema ts ->
    cell_in ts k r f v -> cell_in ts k r f v' -> v = v'.
  Proof.
    intros ts k r f v v' Hts (i & H1 & H2) (j & H3 & H4).
    assert (i = j) as ->.
    { unfold wf_tschema, tfields in Hts. rewrite NoDup_nth_error in Hts. apply Hts.
      - eapply nth_error_Some_lt; eauto.
      - congruence. }
    congruence.
  Qed.

  Lemma edit_exists : forall sch tys d dv rv t ts rid k r f v dt,
    wf_schema sch -> wf_types sch tys -> wf_dat sch d -> In (t, ts) sch ->
    row_in (d t) rid k r -> In (f, v) (combine (tdf ts) r) -> dget2 tys t f = Some dt ->
    existsb (fun e => tf_eqb (fst (fst e)) (t, f) && rowid_pyeq rid (snd (fst e)))
      (edits (report_of (events parses sch tys d)) (real_replacements sch tys dv rv)) =
    negb (valid_data parses dt v).
  Proof.
    intros sch tys d dv rv t ts rid k r f v dt Hs Ht Hd Hin Hrow Hf Hdt.
    pose proof (events_NoDup parses _ _ _ Hs Ht Hd) as Hnd.
    assert (In f (tdf ts)) as Hfd by (apply in_combine_l in Hf; auto).
    assert (cell_in ts k r f v) as Hc by (eapply data_cell_in; eauto).
    assert (wf_tschema ts) as Hts by (now apply (proj2 Hs) in Hin).
    apply eq_true_iff_eq. rewrite existsb_exists, negb_true_iff. split.
    - intros ([[tf rid'] x] & He & E). simpl in E. apply andb_prop in E as [E1 E2].
      apply tf_eqb_eq in E1. subst tf. unfold edits in He.
      apply in_flat_map in He as ([[t0 f0] [vals rids]] & Hrep & He). simpl in He.
      destruct (dget tf_eqb _ (t0, f0)); [| destruct He].
      apply in_map_iff in He as (rid0 & E & Hr). injection E as -> -> -> ->.
      assert (reports_row (report_of (events parses sch tys d)) t f rid') as Hrr by (exists vals, rids; auto).
      apply report_of_rows in Hrr as (e & He & <- & <- & <-); auto.
      apply events_failing in He as (ts' & k' & r' & dt' & H1 & H2 & H3 & H4 & H5); auto.
      destruct (row_in_canon ts (d (ev_t e)) rid k r (ev_row e) k' r') as (-> & -> & ->); auto.
      assert (ts' = ts) as ->.
      { rewrite <- (ts_of_In _ _ _ Hs H1). now apply ts_of_In. }
      rewrite (cell_in_unique _ _ _ _ _ _ Hts Hc H3).
      apply (tmp_types_get _ _ _ _ _ Ht) in H4.
      assert (enforced sch tys (ev_t e) (ev_f e) dt) as H6.
      { left. now apply (declared_dget2 _ _ _ _ _ Ht). }
      apply (tmp_types_get _ _ _ _ _ Ht) in H6. congruence.
    - intros Hv. exists ((t, f), rid, replacement_for dv rv t f). simpl.
      rewrite tf_eqb_refl, rowid_pyeq_refl. split; auto.
      assert (reports_row (report_of (events parses sch tys d)) t f rid) as (vals & rids & H1 & H2).
      { apply report_of_rows; auto. exists (mkEv t f rid v). repeat split; auto.
        apply events_failing; auto. simpl. exists ts, k, r, dt. repeat split; auto.
        left. now apply (declared_dget2 _ _ _ _ _ Ht). }
      unfold edits. apply in_flat_map. exists ((t, f), (vals, rids)). split; auto. simpl.
      rewrite (real_replacements_get _ _ _ _ _ _ Ht), Hdt.
      rewrite (not_pk_of_data _ _ _ _ Hs Hin Hfd). apply in_map_iff. exists rid. auto.
  Qed.

  Lemma apply_replacements_spec : forall sch tys d dv rv t ts,
    wf_schema sch -> wf_types sch tys -> wf_dat sch d -> In (t, ts) sch ->
    apply_replacements sch d (report_of (events parses sch tys d)) (real_replacements sch tys dv rv) t =
    map_cells ts (fun _ f v => repair parses tys dv rv t f v) (d t).
  Proof.
    intros sch tys d dv rv t ts Hs Ht Hd Hin. rewrite apply_edits, (fold_edits _ _ _ _ ts) by auto.
    apply map_cells_ext. intros rid k r f v Hrow Hf.
    rewrite (final_cell_uniform _ _ _ _ _ (replacement_for dv rv t f)).
    - unfold repair. destruct (dget2 tys t f) as [dt |] eqn:Hdt.
      + rewrite (edit_exists sch tys d dv rv t ts rid k r f v dt); auto.
        now destruct (valid_data parses dt v).
      + destruct (existsb _ _) eqn:E; auto. exfalso.
        apply existsb_exists in E as ([[tf rid'] x] & He & E). simpl in E.
        apply andb_prop in E as [E1 E2]. apply tf_eqb_eq in E1. subst tf.
        unfold edits in He. apply in_flat_map in He as ([[t0 f0] [vals rids]] & _ & He). simpl in He.
        destruct (dget tf_eqb _ (t0, f0)) eqn:Eg; [| destruct He].
        apply in_map_iff in He as (rid0 & E & Hr). injection E as -> -> -> ->.
        rewrite (real_replacements_get _ _ _ _ _ _ Ht), Hdt in Eg. discriminate.
    - intros tf rid' y He ->. unfold edits in He.
      apply in_flat_map in He as ([[t0 f0] [vals rids]] & _ & He). simpl in He.
      destruct (dget tf_eqb _ (t0, f0)) eqn:Eg; [| destruct He].
      apply in_map_iff in He as (rid0 & E & Hr). injection E as -> -> -> ->.
      rewrite (real_replacements_get _ _ _ _ _ _ Ht) in Eg.
      destruct (dget2 tys t f); try discriminate.
      destruct (existsb _ _); try discriminate. now injection Eg.
  Qed.

  Lemma apply_replacements_other : forall sch tys d dv rv t,
    wf_schema sch -> wf_types sch tys -> wf_dat sch d -> ~ In t (map fst sch) ->
    apply_replacements sch d (report_of (events parses sch tys d)) (real_replacements sch tys dv rv) t = d t.
  Proof.
    intros sch tys d dv rv t Hs Ht Hd Hnin. rewrite apply_edits. apply fold_edits_other.
    intros [[[t0 f0] rid] x] He E. simpl in E. subst t0. apply Hnin.
    unfold edits in He. apply in_flat_map in He as ([[t1 f1] [vals rids]] & Hrep & He). simpl in He.
    destruct (dget tf_eqb _ (t1, f1)); [| destruct He].
    apply in_map_iff in He as (rid0 & E & Hr). injection E as -> -> -> ->.
    assert (reports_row (report_of (events parses sch tys d)) t f0 rid) as Hrr by (exists vals, rids; auto).
    apply report_of_rows in Hrr as (e & He & <- & <- & <-); [| now apply events_NoDup].
    apply events_failing in He as (ts' & k' & r' & dt' & H1 & _); auto.
    apply in_map_iff. exists (ev_t e, ts'). auto.
  Qed.

  Lemma dmem_report : forall sch tys d t f,
    wf_schema sch -> wf_types sch tys -> wf_dat sch d ->
    (dmem tf_eqb (report_of (events parses sch tys d)) (t, f) = true <->
     exists rid v, failing parses sch tys d t f rid v).
  Proof.
    intros sch tys d t f Hs Ht Hd.
    pose proof (events_NoDup parses _ _ _ Hs Ht Hd) as Hnd.
    unfold dmem. split.
    - destruct (dget tf_eqb _ (t, f)) as [[vals rids] |] eqn:E; try discriminate. intros _.
      apply (dget_In tf_eqb) in E as ([t0 f0] & E & Hin). apply tf_eqb_eq in E. injection E as -> ->.
      apply report_of_In in Hin as (Hne & _ & _); auto.
      destruct (at_tf t f (events parses sch tys d)) as [| e l] eqn:Ea; [congruence |].
      assert (In e (at_tf t f (events parses sch tys d))) as He by (rewrite Ea; now left).
      apply at_tf_In in He as (He & <- & <-). exists (ev_row e), (ev_val e). now apply events_failing.
    - intros (rid & v & Hf).
      assert (reports_row (report_of (events parses sch tys d)) t f rid) as (vals & rids & H1 & _).
      { apply report_of_rows; auto. exists (mkEv t f rid v). repeat split; auto. now apply events_failing. }
      apply (In_dget tf_eqb tf_eqb_refl) in H1.
      + now rewrite H1.
      + apply (keys_distinct_NoDup tf_eqb tf_eqb_eq). apply report_of_keys_NoDup.
  Qed.

  (** Which calls succeed. *)
  Definition replaceable (sch : schema) (tys : types) (dv : defaults) (rv : replacements) (d : dat) : Prop :=
    (forall t f v, In ((t, f), v) rv -> exists ts, In (t, ts) sch /\ In f (tdf ts)) /\
    (forall t ts f dt rid v, In (t, ts) sch -> In f (tdf ts) -> declared tys t f dt ->
       failing parses sch tys d t f rid v -> valid_data parses dt (replacement_for dv rv t f) = true).

  Lemma repl_ok_iff : forall sch rv, wf_schema sch ->
    (repl_ok sch rv = true <->
     forall t f v, In ((t, f), v) rv -> exists ts, In (t, ts) sch /\ In f (tdf ts)).
  Proof.
    intros sch rv Hs. unfold repl_ok. rewrite forallb_forall. split.
    - intros H t f v Hin. specialize (H _ Hin). simpl in H. apply andb_prop in H as [H1 H2].
      unfold dmem in H1. destruct (dget String.eqb sch t) as [ts |] eqn:E; try discriminate.
      apply dget_In_NoDup in E; [| apply Hs]. rewrite (ts_of_In _ _ _ Hs E) in H2.
      apply existsb_string in H2. eauto.
    - intros H [[t f] v] Hin. simpl. destruct (H _ _ _ Hin) as (ts & H1 & H2).
      rewrite (ts_of_In _ _ _ Hs H1). apply existsb_string in H2. rewrite H2, andb_true_r.
      unfold dmem. apply dget_In_NoDup in H1; [| apply Hs]. now rewrite H1.
  Qed.

  Lemma replacements_valid_iff : forall sch tys dv rv d,
    wf_schema sch -> wf_types sch tys -> wf_dat sch d ->
    (replacements_valid parses tys (report_of (events parses sch tys d))
       (real_replacements sch tys dv rv) = true <->
     forall t ts f dt rid v, In (t, ts) sch -> In f (tdf ts) -> declared tys t f dt ->
       failing parses sch tys d t f rid v -> valid_data parses dt (replacement_for dv rv t f) = true).
  Proof.
    intros sch tys dv rv d Hs Ht Hd. unfold replacements_valid. rewrite forallb_forall. split.
    - intros H t ts f dt rid v Hin Hf Hdec Hfail.
      apply (declared_dget2 _ _ _ _ _ Ht) in Hdec.
      assert (dget tf_eqb (real_replacements sch tys dv rv) (t, f) = Some (replacement_for dv rv t f)) as Eg.
      { rewrite (real_replacements_get _ _ _ _ _ _ Ht), Hdec, (not_pk_of_data _ _ _ _ Hs Hin Hf). auto. }
      apply (dget_In tf_eqb) in Eg as (k & E & Hk). apply tf_eqb_eq in E. subst k.
      specialize (H _ Hk). simpl in H.
      assert (dmem tf_eqb (report_of (events parses sch tys d)) (t, f) = true) as E
        by (apply dmem_report; eauto).
      rewrite E, Hdec in H. auto.
    - intros H [[t f] x] Hin. simpl.
      destruct (dmem tf_eqb _ (t, f)) eqn:E; auto.
      apply dmem_report in E as (rid & v & Hfail); auto.
      assert (dget tf_eqb (real_replacements sch tys dv rv) (t, f) = Some x) as Eg.
      { apply (In_dget tf_eqb tf_eqb_refl); auto. rewrite real_replacements_fold.
        apply fold_dset_distinct. simpl. auto. }
      rewrite (real_replacements_get _ _ _ _ _ _ Ht) in Eg.
      destruct (dget2 tys t f) as [dt |] eqn:Edt; try discriminate.
      destruct (existsb _ (tpk _)) eqn:Ep; try discriminate. injection Eg as <-.
      pose proof Edt as Hdec. apply (declared_dget2 _ _ _ _ _ Ht) in Hdec.
      destruct Hdec as (fs & H1 & H2). pose proof Ht as [_ Ht'].
      destruct (Ht' _ _ H1) as (_ & ts & Hts & Hf).
      eapply H; eauto.
      + specialize (Hf _ _ H2). rewrite (ts_of_In _ _ _ Hs Hts) in Ep. unfold tfields in Hf.
        apply in_app_iff in Hf as [Hf | Hf]; auto. apply existsb_string in Hf. congruence.
      + exists fs. auto.
  Qed.

  (** The call, exactly. *)
  Theorem replace_types_exact : forall sch tys dv rv d,
    wf_schema sch -> wf_types sch tys -> wf_dat sch d ->
    let o := replace_data_type_failures parses sch tys dv d rv in
    (raised o = false <-> replaceable sch tys dv rv d) /\
    (raised o = true -> out_dat o = d) /\
    (raised o = false ->
     (forall t ts, In (t, ts) sch ->
        out_dat o t = map_cells ts (fun _ f v => repair parses tys dv rv t f v) (d t)) /\
     (forall t, ~ In t (map fst sch) -> out_dat o t = d t)).
  Proof.
    intros sch tys dv rv d Hs Ht Hd. simpl. unfold replace_data_type_failures. rewrite find_all.
    pose proof (repl_ok_iff sch rv Hs) as Hok.
    pose proof (replacements_valid_iff sch tys dv rv d Hs Ht Hd) as Hval.
    pose proof (apply_replacements_spec sch tys d dv rv) as Happ.
    pose proof (apply_replacements_other sch tys d dv rv) as Hoth.
    destruct (repl_ok sch rv).
    2:{ simpl. split; [| split]; auto; try discriminate.
        split; try discriminate. intros [H _]. apply Hok in H. discriminate. }
    remember (report_of (events parses sch tys d)) as needed eqn:En.
    destruct needed as [| e needed].
    - simpl. split; [| split]; auto; try discriminate.
      split; auto. intros _. split; [now apply Hok |]. apply Hval.
      unfold replacements_valid. apply forallb_forall. auto.
    - destruct (replacements_valid _ _ _ _); simpl.
      + split; [| split]; try discriminate.
        * split; auto. intros _. split; [now apply Hok | now apply Hval].
        * intros _. split; [intros t ts Hin; now apply Happ | intros t Hn; now apply Hoth].
      + split; [| split]; auto; try discriminate.
        split; try discriminate. intros [_ H]. apply Hval in H. discriminate.
  Qed.

  (** ** Consequences *)

  Lemma row_in_map_cells : forall ts g tb rid k r',
    row_in (map_cells ts g tb) rid k r' <->
    exists r, row_in tb rid k r /\ r' = map_row ts (g rid) r.
  Proof.
    intros ts g [l | l] rid k r'; simpl; split.
    - intros [H ->]. apply in_map_iff in H as ([k0 r0] & E & Hin). simpl in E. injection E as <- <-.
      exists r0. auto.
    - intros (r & [Hin ->] & ->). split; auto. apply in_map_iff. exists (k, r). auto.
    - intros (-> & i & Hi & ->). rewrite nth_error_map in Hi.
      destruct (nth_error (enum_from 0 l) i) as [[j r0] |] eqn:E; [| discriminate].
      simpl in Hi. injection Hi as <-.
      assert (j = i /\ nth_error l i = Some r0) as [-> Hr].
      { clear -E. assert (forall i0, nth_error (enum_from i0 l) i = Some (j, r0) ->
          j = i0 + i /\ nth_error l i = Some r0) as H.
        { clear E. revert i. induction l as [| x l IH]; intros [| i] i0 H; simpl in *; try discriminate.
          - injection H as -> ->. rewrite Nat.add_0_r. auto.
          - apply IH in H as [-> H]. split; auto. lia. }
        apply H in E. auto. }
      exists r0. split; auto. split; auto. exists i. auto.
    - intros (r & (-> & i & Hi & ->) & ->). split; auto. exists i. split; auto.
      rewrite nth_error_map.
      assert (nth_error (enum_from 0 l) i = Some (i, r)) as ->; auto.
      clear -Hi. assert (forall i0, nth_error (enum_from i0 l) i = Some (i0 + i, r)) as H; [| apply H].
      revert i Hi. induction l as [| x l IH]; intros [| i] Hi i0; simpl in *; try discriminate.
      + injection Hi as ->. now rewrite Nat.add_0_r.
      + replace (i0 + S i) with (S i0 + i) by lia. now apply IH.
  Qed.

  Lemma in_combine_map_row : forall ts g r f v',
    In (f, v') (combine (tdf ts) (map_row ts g r)) <->
    exists v, In (f, v) (combine (tdf ts) r) /\ v' = g f v.
  Proof.
    intros ts g r f v'. unfold map_row. generalize (tdf ts). intros fs. revert r.
    induction fs as [| f0 fs IH]; intros [| v0 r]; simpl; try (split; [tauto | intros (v & [] & _)]).
    rewrite IH. split.
    - intros [E | (v & Hin & ->)].
      + injection E as <- <-. eauto.
      + eauto.
    - intros (v & [E | Hin] & ->).
      + injection E as <- <-. auto.
      + eauto.
  Qed.

  Lemma cell_in_data : forall ts k r f v,
    wf_tschema ts -> List.length k = List.length (tpk ts) -> In f (tdf ts) ->
    cell_in ts k r f v -> In (f, v) (combine (tdf ts) r).
  Proof.
    intros ts k r f v Hts Hk Hf (i & H1 & H2).
    destruct (lt_dec i (List.length (tpk ts))) as [Hi | Hi].
    - exfalso. rewrite nth_error_app1 in H1 by auto. apply nth_error_In in H1.
      eapply NoDup_app_disj; eauto.
    - rewrite nth_error_app2 in H1 by lia. rewrite nth_error_app2 in H2 by lia.
      rewrite Hk in H2. eapply nth_error_In. eapply nth_error_combine; eauto.
  Qed.

  Lemma row_in_key_length : forall ts tb rid k r, wf_table ts tb -> row_in tb rid k r ->
    List.length k = List.length (tpk ts).
  Proof.
    intros ts [l | l] rid k r Hwf Hrow; simpl in *.
    - destruct Hwf as (_ & _ & Hl). destruct Hrow as [Hrow _]. now apply Hl in Hrow.
    - destruct Hwf as [-> _]. now destruct Hrow as [-> _].
  Qed.

  (** After a successful call no data field with a declared type fails. *)
  Theorem replace_types_cleans : forall sch tys dv rv d,
    wf_schema sch -> wf_types sch tys -> wf_dat sch d ->
    let o := replace_data_type_failures parses sch tys dv d rv in
    raised o = false ->
    wf_dat sch (out_dat o) /\
    forall t ts f rid v, In (t, ts) sch -> In f (tdf ts) -> ~ failing parses sch tys (out_dat o) t f rid v.
  Proof.
    intros sch tys dv rv d Hs Ht Hd o Ho.
    destruct (replace_types_exact sch tys dv rv d Hs Ht Hd) as (Hr & _ & Hout).
    fold o in Hr, Hout. destruct (Hout Ho) as [Hin _]. apply Hr in Ho. destruct Ho as [_ Hval].
    split.
    - intros t ts H. rewrite (Hin t ts H). apply wf_map_cells. auto.
    - intros t ts f rid v H Hf (ts' & k & r & dt & Hts & Hrow & Hc & He & Hv).
      assert (ts' = ts) as ->.
      { rewrite <- (ts_of_In _ _ _ Hs Hts). now apply ts_of_In. }
      assert (wf_tschema ts) as Hwts by (now apply (proj2 Hs) in H).
      rewrite (Hin t ts H) in Hrow. apply row_in_map_cells in Hrow as (r0 & Hrow & ->).
      pose proof (row_in_key_length _ _ _ _ _ (Hd _ _ H) Hrow) as Hk.
      apply cell_in_data in Hc; auto. apply in_combine_map_row in Hc as (v0 & Hc & ->).
      destruct He as [He | (_ & (ts2 & Hts2 & Hpk) & _)].
      2:{ assert (ts2 = ts) as -> by (rewrite <- (ts_of_In _ _ _ Hs Hts2); now apply ts_of_In).
          eapply NoDup_app_disj; eauto. }
      pose proof He as Hdt. apply (declared_dget2 _ _ _ _ _ Ht) in Hdt.
      unfold repair in Hv. rewrite Hdt in Hv.
      destruct (valid_data parses dt v0) eqn:Ev; [congruence |].
      rewrite (Hval t ts f dt rid v0) in Hv; auto; [discriminate |].
      exists ts, k, r0, dt. repeat split; auto.
      + eapply data_cell_in; eauto.
      + now left.
  Qed.

  (** A second call changes nothing. *)
  Theorem replace_types_twice : forall sch tys dv rv d,
    wf_schema sch -> wf_types sch tys -> wf_dat sch d ->
    let o := replace_data_type_failures parses sch tys dv d rv in
    raised o = false ->
    let o' := replace_data_type_failures parses sch tys dv (out_dat o) rv in
    raised o' = false /\ forall t, out_dat o' t = out_dat o t.
  Proof.
    intros sch tys dv rv d Hs Ht Hd o Ho o'.
    destruct (replace_types_cleans sch tys dv rv d Hs Ht Hd Ho) as [Hwf Hclean]. fold o in Hwf, Hclean.
    destruct (replace_types_exact sch tys dv rv (out_dat o) Hs Ht Hwf) as (Hr & _ & Hout).
    fold o' in Hr, Hout.
    assert (raised o' = false) as Ho'.
    { apply Hr. apply (proj1 (replace_types_exact sch tys dv rv d Hs Ht Hd)) in Ho. destruct Ho as [H1 _].
      split; [exact H1 |]. intros t ts f dt rid v H Hf _ Hfail. exfalso. eapply Hclean; eauto. }
    split; auto. intros t. destruct (Hout Ho') as [H1 H2].
    destruct (in_dec string_dec t (map fst sch)) as [Hin | Hnin]; auto.
    apply in_map_iff in Hin as ([t0 ts] & E & Hin). simpl in E. subst t0.
    rewrite (H1 t ts Hin). transitivity (map_cells ts (fun _ _ v => v) (out_dat o t));
      [| now apply map_cells_id; auto].
    apply map_cells_ext. intros rid k r f v Hrow Hf. unfold repair.
    destruct (dget2 tys t f) as [dt |] eqn:Edt; auto.
    destruct (valid_data parses dt v) eqn:Ev; auto. exfalso.
    apply (Hclean t ts f rid v Hin).
    - now apply in_combine_l in Hf.
    - exists ts, k, r, dt. repeat split; auto.
      + apply (data_cell_in ts (out_dat o t) rid k r f v); auto.
      + left. now apply (declared_dget2 _ _ _ _ _ Ht).
  Qed.
End Replace.
