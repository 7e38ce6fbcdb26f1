(** * Facts about infinity flagging of PanDat tables. *)
From Coq Require Import ZArith Bool List String Lia.
From Verif Require Import PyVal PyValFacts PyDict PyDictFacts TypeDict Data FindTypes FindTypesFacts FK Factory InfIO InfIOFacts.
Import ListNotations.
Local Open Scope string_scope.
Local Open Scope list_scope.

(** Apply a function of (field, cell) to each cell of a row. *)
Definition mapf (fs : list string) (h : string -> value -> value) (r : list value) : list value :=
  map (fun fv => h (fst fv) (snd fv)) (combine fs r).

Lemma mapf_length fs h r : List.length r = List.length fs -> List.length (mapf fs h r) = List.length fs.
Proof. intros H. unfold mapf. rewrite map_length, combine_length. lia. Qed.

Lemma mapf_mapf fs h1 h2 r : List.length r = List.length fs ->
  mapf fs h2 (mapf fs h1 r) = mapf fs (fun y v => h2 y (h1 y v)) r.
Proof.
  revert r. induction fs as [|f fs IH]; intros [|v r] H; cbn in *; try discriminate; auto.
  unfold mapf in *. cbn. f_equal. apply IH. lia.
Qed.

Lemma mapf_ext fs h1 h2 r : (forall y v, In (y, v) (combine fs r) -> h1 y v = h2 y v) -> mapf fs h1 r = mapf fs h2 r.
Proof. intros H. unfold mapf. apply map_ext_in. intros [y v] Hin. cbn. auto. Qed.

Lemma mapf_id fs h r : List.length r = List.length fs -> (forall y v, In (y, v) (combine fs r) -> h y v = v) -> mapf fs h r = r.
Proof.
  revert r. induction fs as [|f fs IH]; intros [|v r] H Hh; cbn in *; try discriminate; auto.
  unfold mapf in *. cbn. f_equal; [now apply Hh; left|]. apply IH; [lia|]. intros y w Hin. apply Hh. now right.
Qed.

Lemma mask_mapf fs l x g : mask_col fs l x g = map (mapf fs (fun y v => if String.eqb y x then g v else v)) l.
Proof. reflexivity. Qed.

Definition rect (fs : list string) (l : list (list value)) : Prop := forall r, In r l -> List.length r = List.length fs.

Lemma rect_mapf fs h l : rect fs l -> rect fs (map (mapf fs h) l).
Proof. intros H r Hr. apply in_map_iff in Hr as (r0 & <- & Hr). now apply mapf_length, H. Qed.

Lemma mapf_map_comp fs h1 h2 l : rect fs l ->
  map (mapf fs h2) (map (mapf fs h1) l) = map (mapf fs (fun y v => h2 y (h1 y v))) l.
Proof. intros H. rewrite map_map. apply map_ext_in. intros r Hr. now apply mapf_mapf, H. Qed.

Lemma mask_mask fs l x g1 g2 : rect fs l ->
  mask_col fs (mask_col fs l x g1) x g2 = mask_col fs l x (fun v => g2 (g1 v)).
Proof.
  intros H. rewrite !mask_mapf, mapf_map_comp by exact H.
  apply map_ext. intros r. apply mapf_ext. intros y v _. now destruct (String.eqb y x).
Qed.

Lemma mask_fold fs xs (g : string -> value -> value) l : rect fs l ->
  fold_left (fun l x => mask_col fs l x (g x)) xs l =
  map (mapf fs (fun y v => fold_left (fun v x => if String.eqb y x then g x v else v) xs v)) l.
Proof.
  revert l. induction xs as [|x xs IH]; intros l H; cbn.
  - rewrite <- (map_id l) at 1. apply map_ext_in. intros r Hr. symmetry. apply mapf_id; auto.
  - rewrite IH by (rewrite mask_mapf; now apply rect_mapf).
    rewrite mask_mapf, mapf_map_comp by exact H. reflexivity.
Qed.

Lemma fold_at (g : string -> value -> value) xs y v : NoDup xs ->
  fold_left (fun v x => if String.eqb y x then g x v else v) xs v =
  if existsb (String.eqb y) xs then g y v else v.
Proof.
  intros H. revert v. induction H as [|x xs Hx H IH]; intros v; cbn; auto.
  rewrite IH. destruct (String.eqb_spec y x) as [->|N]; cbn; auto.
  destruct (existsb (String.eqb x) xs) eqn:E; auto.
  apply existsb_exists in E as (z & Hz & Q). apply String.eqb_eq in Q. now subst.
Qed.

(** Restricting the updates to the fields with issues loses nothing. *)
Lemma gate_exact fs scan l (bad : string -> value -> bool) (g : string -> value -> value) :
  rect fs l -> NoDup scan ->
  (forall x v, bad x v = false -> g x v = v) ->
  (forall x v, In x fs -> ~ In x scan -> g x v = v) ->
  fold_left (fun l x => mask_col fs l x (g x)) (fields_w_issues scan fs l bad) l = map (mapf fs g) l.
Proof.
  intros H N Hb Hs. rewrite mask_fold by exact H. apply map_ext_in. intros r Hr.
  apply mapf_ext. intros y v Hin.
  rewrite fold_at by (now apply NoDup_filter).
  destruct (existsb (String.eqb y) (fields_w_issues scan fs l bad)) eqn:E; auto.
  destruct (bad y v) eqn:B; [|now rewrite Hb].
  destruct (in_dec string_dec y scan) as [Hy|Hy]; [|rewrite Hs; auto; now apply in_combine_l in Hin].
  exfalso. revert E. apply eq_true_false_abs.
  apply existsb_exists. exists y. split; [|apply String.eqb_refl].
  unfold fields_w_issues. apply filter_In. split; auto.
  apply existsb_exists. exists r. split; auto.
  apply existsb_exists. exists (y, v). split; auto. cbn. now rewrite String.eqb_refl, B.
Qed.

Lemma num_abs_ge_false m v : num_abs_ge m v = false -> unflag (VNum m) v = v.
Proof.
  destruct v; auto. cbn. rewrite orb_false_iff. intros [-> ->]. reflexivity.
Qed.

Lemma two_masks m v : good_flag (VNum m) = true ->
  match (match v with VNum n => if num_leb m n then VNum m else v | _ => v end) with
  | VNum n => if num_leb n (num_opp m) then VNum (num_opp m)
              else (match v with VNum n => if num_leb m n then VNum m else v | _ => v end)
  | w => w
  end = flagged (VNum m) v.
Proof.
  intros G. destruct (flag_pos m G) as (z & -> & Hz).
  destruct v as [| |b|n|s|d]; auto.
  destruct (num_leb (Fin z) n) eqn:E.
  - rewrite flagged_over by auto. cbn [num_opp]. unfold num_leb. rewrite num_ltb_fin.
    replace (- z <? z)%Z with true by (symmetry; apply Z.ltb_lt; lia). reflexivity.
  - destruct (num_leb n (num_opp (Fin z))) eqn:E2.
    + now rewrite flagged_under.
    + rewrite flagged_within; auto. unfold within, num_leb in *.
      apply negb_false_iff in E, E2. now split.
Qed.

Lemma num_abs_ge_flagged m v : good_flag (VNum m) = true -> num_abs_ge m v = false -> flagged (VNum m) v = v.
Proof.
  intros G. destruct v; auto. cbn [num_abs_ge]. rewrite orb_false_iff. unfold num_leb. intros [H1 H2].
  apply negb_false_iff in H1, H2. apply flagged_within. now split.
Qed.

Lemma fold_left_ext {A B} (f g : A -> B -> A) (P : A -> Prop) l a :
  (forall a b, P a -> f a b = g a b) -> (forall a b, P a -> P (g a b)) -> P a ->
  fold_left f l a = fold_left g l a.
Proof.
  intros H Hp. revert a. induction l as [|b l IH]; intros a Ha; cbn; auto.
  rewrite H by exact Ha. apply IH. auto.
Qed.

Lemma pan_write_num_eq m fs l : good_flag (VNum m) = true -> NoDup fs -> rect fs l ->
  pan_write_num m fs l = map (mapf fs (fun _ => flagged (VNum m))) l.
Proof.
  intros G N H. unfold pan_write_num.
  rewrite (fold_left_ext _ (fun l x => mask_col fs l x (flagged (VNum m))) (rect fs)).
  - apply (gate_exact fs fs l (fun _ => num_abs_ge m) (fun _ => flagged (VNum m))); auto.
    + intros _ v. now apply num_abs_ge_flagged.
    + intros x v Hx Hn. contradiction.
  - intros l' x Hl. cbn zeta. rewrite mask_mask by exact Hl.
    rewrite !mask_mapf. apply map_ext. intros r. apply mapf_ext. intros y v _.
    destruct (String.eqb y x); auto. rewrite <- (two_masks m v G).
    now destruct v as [| |?|n|?|?]; auto; destruct (num_leb m n).
  - intros l' x Hl. rewrite mask_mapf. now apply rect_mapf.
  - exact H.
Qed.

Lemma pan_read_num_eq m fs l : NoDup fs -> rect fs l ->
  pan_read_num m fs l = map (mapf fs (fun _ => unflag (VNum m))) l.
Proof.
  intros N H. unfold pan_read_num.
  apply (gate_exact fs fs l (fun _ => num_abs_ge m) (fun _ => unflag (VNum m))); auto.
  - intros _ v. apply num_abs_ge_false.
  - intros x v Hx Hn. contradiction.
Qed.

Lemma pan_write_none_eq bs fs l : NoDup fs -> rect fs l ->
  pan_write_none bs fs l = map (mapf fs (fun x v => if is_bias_inf (bs x) v then VNone else v)) l.
Proof.
  intros N H. unfold pan_write_none.
  apply (gate_exact fs _ l (fun x => is_bias_inf (bs x)) (fun x v => if is_bias_inf (bs x) v then VNone else v)); auto.
  - now apply NoDup_filter.
  - intros x v Hb. now rewrite Hb.
  - intros x v Hx Hn. destruct (bs x) eqn:E; auto.
    exfalso. apply Hn. apply filter_In. now rewrite E.
Qed.

Section Pan.
  Variable date_of : value -> option Z.
  Variable float_of : value -> option value.

  Notation is_date := (is_date date_of).
  Notation adjust := (adjust date_of).
  Notation bias_now := (bias_now date_of).
  Notation pan_write := (pan_write date_of).
  Notation pan_read := (pan_read date_of float_of).
  Notation pan_read_cell := (pan_read_cell date_of float_of).
  Notation kept := (kept date_of float_of).

  Lemma pan_read_cell_kept f t x v : kept f t x v -> pan_read_cell f None t x v = v.
  Proof.
    intros K. unfold InfIO.pan_read_cell. rewrite (kept_munge _ _ _ _ _ _ K).
    destruct (field_type f t x) as [dt|] eqn:E; auto.
    destruct (datetime dt) eqn:D; auto.
    destruct (K _ E) as [Hd _].
    destruct (is_null v) eqn:N.
    - destruct v; try discriminate; reflexivity.
    - destruct (adjust v) as [d|] eqn:A; auto. now rewrite (Hd D eq_refl d eq_refl).
  Qed.

  Lemma pan_read_cell_bias f t x v b : kept f t x v -> is_null v = false ->
    pan_read_cell f (Some b) t x v = v.
  Proof.
    intros K N. rewrite <- (pan_read_cell_kept f t x v K) at 2. unfold InfIO.pan_read_cell.
    rewrite (kept_munge _ _ _ _ _ _ K), N. reflexivity.
  Qed.

  Lemma pan_read_cell_null f t x b : bias_now f t x = Ret (Some b) ->
    pan_read_cell f (Some b) t x VNone = inf_of b.
  Proof.
    intros B. unfold InfIO.pan_read_cell.
    assert (munge float_of f t x VNone = VNone) as ->.
    { unfold munge. destruct (field_type f t x); auto. now destruct (_ && _). }
    cbn [is_null]. destruct (field_type f t x); auto. now destruct (datetime d).
  Qed.

  (** Numeric flag: a table comes back as it was. *)
  Lemma pan_round_trip_numeric f t fs l m :
    NoDup fs -> rect fs l -> t <> "parameters" ->
    f_flag f = VNum m -> good_flag (VNum m) = true ->
    (forall r x v, In r l -> In (x, v) (combine fs r) ->
       kept f t x v /\ (forall n, v = VNum n -> n = PInf \/ n = NInf \/ within m n)) ->
    exists w, pan_write f t fs l = Ret w /\ pan_read f t fs w = Ret l.
  Proof.
    intros N H Ht F G Hc. apply par_neq in Ht. unfold InfIO.pan_write. rewrite Ht, F.
    eexists. split; [reflexivity|].
    unfold InfIO.pan_read, biases. rewrite F. f_equal.
    rewrite pan_write_num_eq by auto.
    rewrite pan_read_num_eq by (auto using rect_mapf).
    rewrite mapf_map_comp by auto.
    change (map (mapf fs (fun x => pan_read_cell f None t x))
              (map (mapf fs (fun _ v => unflag (VNum m) (flagged (VNum m) v))) l) = l).
    rewrite mapf_map_comp by auto.
    rewrite <- (map_id l) at 2. apply map_ext_in. intros r Hr.
    apply mapf_id; [now apply H|]. intros x v Hin.
    destruct (Hc r x v Hr Hin) as [K Hv].
    destruct (flag_pos m G) as (z & -> & Hz).
    assert (unflag (VNum (Fin z)) (flagged (VNum (Fin z)) v) = v) as ->; [|now apply pan_read_cell_kept].
    destruct v as [| |b|n|q|q]; auto.
    destruct (Hv n eq_refl) as [-> | [-> | W]].
    - rewrite flagged_pinf by exact Hz. now rewrite unflag_top.
    - rewrite flagged_ninf by exact Hz. now rewrite unflag_bottom.
    - rewrite flagged_within by exact W. now rewrite unflag_within.
  Qed.

  (** None flag: a table all of whose cells are valid comes back as it was,
      or the write raises. *)
  Lemma pan_round_trip_none f t fs l w :
    NoDup fs -> rect fs l -> t <> "parameters" -> f_flag f = VNone ->
    (forall r x v, In r l -> In (x, v) (combine fs r) ->
       kept f t x v /\ (forall dt, field_type f t x = Some dt -> valid_data is_date dt v = true)) ->
    pan_write f t fs l = Ret w -> pan_read f t fs w = Ret l.
  Proof.
    intros N H Ht F Hc. apply par_neq in Ht. unfold InfIO.pan_write, InfIO.pan_read, biases. rewrite Ht, F.
    destruct (existsb _ fs) eqn:X; [discriminate|]. intros [= <-]. f_equal.
    assert (Hr : forall x, In x fs -> bias_now f t x <> Raise).
    { intros x Hx Q. revert X. apply eq_true_false_abs. apply existsb_exists. exists x. now rewrite Q. }
    rewrite pan_write_none_eq by auto.
    set (bs := fun x => match bias_now f t x with Ret b => b | Raise => None end).
    change (map (mapf fs (fun x => pan_read_cell f (bs x) t x))
              (map (mapf fs (fun x v => if is_bias_inf (bs x) v then VNone else v)) l) = l).
    rewrite mapf_map_comp by auto.
    rewrite <- (map_id l) at 2. apply map_ext_in. intros r Hr0.
    apply mapf_id; [now apply H|]. intros x v Hin.
    destruct (Hc r x v Hr0 Hin) as [K Hv].
    assert (Hx : In x fs) by (now apply in_combine_l in Hin).
    specialize (Hr x Hx). unfold bs.
    destruct (bias_now f t x) as [[b|]|] eqn:B; [| |congruence]; cbn [is_bias_inf].
    - destruct (value_eqb (inf_of b) v) eqn:Q.
      + apply value_eqb_true in Q. subst v. now apply pan_read_cell_null.
      + apply pan_read_cell_bias; auto.
        destruct (bias_some _ _ _ _ _ B) as (dt & Hdt & _ & Hn & _).
        specialize (Hv _ Hdt). destruct v; auto; cbn in *; congruence.
    - now apply pan_read_cell_kept.
  Qed.

  (** The parameters table is never flagged. *)
  Lemma pan_params_write f fs l : rect fs l ->
    pan_write f "parameters" fs l =
    Ret (if has_params f then map (mapf fs (fun x v => if String.eqb x (last fs "") && is_null v then VNone else v)) l else l).
  Proof.
    intros H. unfold InfIO.pan_write. cbn [String.eqb Ascii.eqb Bool.eqb].
    destruct (has_params f); auto. f_equal. rewrite mask_mapf. apply map_ext. intros r. apply mapf_ext.
    intros y v _. now destruct (String.eqb y (last fs "")).
  Qed.
End Pan.

Lemma mapf_const fs g r : List.length r = List.length fs -> mapf fs (fun _ => g) r = map g r.
Proof.
  revert r. induction fs as [|f fs IH]; intros [|v r] H; cbn in *; try discriminate; auto.
  unfold mapf in *. cbn. f_equal. apply IH. now injection H.
Qed.

Lemma pan_write_num_all m fs l : good_flag (VNum m) = true -> NoDup fs -> rect fs l ->
  pan_write_num m fs l = map (fun r => map (flagged (VNum m)) r) l.
Proof.
  intros G N H. rewrite pan_write_num_eq by auto. apply map_ext_in. intros r Hr.
  apply mapf_const. now apply H.
Qed.

Lemma pan_params_untouched date_of f fs l : rect fs l -> f_params f = [] ->
  pan_write date_of f "parameters" fs l = Ret l.
Proof. intros H E. rewrite pan_params_write by exact H. unfold has_params. now rewrite E. Qed.
