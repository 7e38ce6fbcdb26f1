(** * Concrete PanDat objects written to Postgres. *)
From Coq Require Import ZArith Bool List String Ascii Arith Lia Permutation.
From Verif Require Import PyVal PyValFacts PyDict PyDictFacts PyStr ListFacts TypeDict Data FindTypes FindTypesFacts FK Graph GraphFacts
  Obj ObjFacts ObjMore WfCheck Factory FactoryFacts InfIO InfIOFacts Params Names NamesFacts Utils Json ObjRows JsonFacts TripFacts
  Frames PanIO PanRead PanJson Pg PgFacts PgWrite PgTrip PgStore PgMore PgPan PgPanFacts PgPanTrip InfWitness JsonWitness PgWitness.
Import ListNotations.
Local Open Scope string_scope.
Local Open Scope list_scope.

(** ** Deciding the hypotheses on rows *)

Definition kept_b (f : factory) (t x : string) (v : value) : bool :=
  match field_type f t x with
  | None => true
  | Some dt =>
      (negb (datetime dt) || is_null v || match adjust wi_date v with None => true | Some d => value_eqb v (VDate d) end) &&
      (datetime dt || negb (number_allowed dt) || match to_float wi_float v with None => true | Some w => value_eqb w v end)
  end.

Lemma kept_b_ok f t x v : kept_b f t x v = true -> kept wi_date wi_float f t x v.
Proof.
  intros H dt E. unfold kept_b in H. rewrite E in H. apply andb_true_iff in H as [H1 H2]. split.
  - intros D N d A. rewrite D, N, A in H1. cbn [negb orb] in H1. now apply value_eqb_eq.
  - intros D _ N _. rewrite D, N in H2. cbn [negb orb] in H2. destruct (to_float wi_float v); auto. apply value_eqb_eq in H2. subst. auto.
Qed.

Definition stays_b (f : factory) (t x : string) (v : value) : bool :=
  kept_b f t x v &&
  match f_flag f with
  | VNum m => match v with VNum PInf | VNum NInf => true | VNum n => num_ltb (num_opp m) n && num_ltb n m | _ => true end
  | VNone => match field_type f t x with None => true | Some dt => valid_data (is_date wi_date) dt v end
  | _ => true
  end.

Lemma stays_b_ok f t x v : stays_b f t x v = true -> stays wi_date wi_float f t x v.
Proof.
  intros H. unfold stays_b in H. apply andb_true_iff in H as [H1 H2]. split; [now apply kept_b_ok |]. split.
  - intros m n E ->. rewrite E in H2. destruct n; auto. right. right. apply andb_true_iff in H2 as [A B]. split; auto.
  - intros E dt Et. now rewrite E, Et in H2.
Qed.

Definition wp_coerce := coerce wp_text wp_num wp_stamp wp_bool wp_int wp_float wp_other.

Definition column_b (f : factory) (db : pgdb) (t x : string) (v : value) : bool :=
  match dget String.eqb db t with
  | None => true
  | Some pt => forallb (fun c => negb (String.eqb (c_name c) (pg_name x)) ||
      match wp_coerce (c_type c) (goes_in wi_date f t x v) with Some u => value_eqb u (goes_in wi_date f t x v) | None => false end) (pt_cols pt)
  end.

Lemma column_b_ok f db t x v : column_b f db t x v = true -> column_ok wi_date wp_int wp_float wp_other f db t x v.
Proof.
  intros H pt c G Hc E. unfold column_b in H. rewrite G in H. rewrite forallb_forall in H. specialize (H c Hc). rewrite E, String.eqb_refl in H. cbn [negb orb] in H.
  apply (keeps_spec wp_text wp_num wp_stamp wp_bool). unfold wp_coerce in H. destruct (coerce _ _ _ _ _ _ _ (c_type c) _); [| discriminate]. apply value_eqb_eq in H. now subst.
Qed.

Definition wp_stays := row_stays wi_date wi_float wp_text wp_num wp_stamp wp_bool wp_int wp_float wp_other.

Definition row_b (f : factory) (db : pgdb) (t : string) (ts : tschema) (r : list value) : bool :=
  Nat.eqb (List.length r) (List.length (tfields ts)) &&
  forallb (fun xv => column_b f db t (fst xv) (snd xv) && (String.eqb t "parameters" || stays_b f t (fst xv) (snd xv))) (combine (tfields ts) r).

Lemma row_b_ok f db t ts r : row_b f db t ts r = true -> (t <> "parameters" \/ has_params f = false) -> wp_stays f db t ts r.
Proof.
  intros H Hp. assert (String.eqb t "parameters" && has_params f = false) as E by (destruct Hp as [Hp | Hp]; [apply String.eqb_neq in Hp; now rewrite Hp | rewrite Hp; apply andb_false_r]).
  unfold row_b in H. apply andb_true_iff in H as [H1 H2]. apply Nat.eqb_eq in H1. rewrite forallb_forall in H2. split; auto. rewrite E. split; [| discriminate].
  intros x v Hx. specialize (H2 _ Hx). cbn [fst snd] in H2. apply andb_true_iff in H2 as [A B]. split; [now apply column_b_ok |].
  intros Hn. apply String.eqb_neq in Hn. rewrite Hn in B. now apply stays_b_ok.
Qed.

(** ** The rows of PgWitness as DataFrames *)

Definition wp_frames (t : string) : list (list value) :=
  if String.eqb t "parent" then [[VStr "b"; VNum PInf; VDate 5]; [VStr "a"; int 999; VDate 6]]
  else if String.eqb t "child" then [[VStr "a"; int 1; int 2]; [VStr "b"; int 1; int 3]]
  else if String.eqb t "log" then [[VStr "it's"; int 1]; [VStr "it's"; VNaN]]
  else if String.eqb t "parameters" then [[VStr "Big"; int 7]]
  else [].

Definition wp_pan_write := pan_write_data wi_date wp_text wp_num wp_stamp wp_bool wp_int wp_float wp_other.
Definition wp_pan_read := pan_pg_create wi_date wi_float (fun l => l) (fun _ => "").
Definition wp_on : nat -> bool := fun _ => true.

(** The column active of wp_marked says which parents are read. *)
Definition wp_pan_full : pgdb := snd (wp_pan_write wp_fac false wp_on [] "active" wp_frames wp_marked).
Definition wp_pan_moved : pgdb := rev (map (fun tp => (fst tp, with_rows (snd tp) (rev (pt_rows (snd tp))))) wp_pan_full).

Lemma wp_marked_wf : db_wf wp_marked.
Proof. apply db_wf_ok. vm_compute. reflexivity. Qed.

Lemma wp_shape : params_shape wp_fac.
Proof. intros _. exists "Key", "Value". rewrite wp_plain. left. reflexivity. Qed.

Lemma wp_fit : rows_fit wp_fac wp_frames.
Proof.
  intros t ts r Hin Hr. rewrite wp_plain in Hin. destruct Hin as [E | [E | [E | [E | []]]]]; injection E as <- <-; simpl in Hr;
    repeat (destruct Hr as [<- | Hr]; [reflexivity |]); contradiction.
Qed.

Lemma wp_rows_stay : forall t ts r, In (t, ts) (plain_schema wp_fac) -> In r (wp_frames t) -> wp_stays wp_fac wp_marked t ts r.
Proof.
  intros t ts r Hin Hr. rewrite wp_plain in Hin. destruct Hin as [E | [E | [E | [E | []]]]]; injection E as <- <-; cbn in Hr.
  2-4: repeat (destruct Hr as [<- | Hr]; [apply row_b_ok; [vm_compute; reflexivity | left; discriminate] |]); contradiction.
  destruct Hr as [<- | []]. split; [reflexivity |]. split.
  - replace (String.eqb "parameters" "parameters" && has_params wp_fac) with true by (vm_compute; reflexivity).
    exists "Big", (int 7). split; [reflexivity |]. intros pt c u G Hc E H. vm_compute in G. injection G as <-.
    vm_compute in Hc. destruct Hc as [<- | [<- | []]]; [vm_compute in E; discriminate E |].
    assert (u = VStr "7") as -> by (vm_compute in H; congruence). split.
    + intros dt Ht. vm_compute in Ht. injection Ht as <-. vm_compute. reflexivity.
    + exists "7". split; [reflexivity |]. split; [| reflexivity]. intros dt Ht. vm_compute in Ht. injection Ht as <-. split; [reflexivity | intros X; vm_compute in X; discriminate X].
  - intros _ x v [E | []]. injection E as <- <-. apply column_b_ok. vm_compute. reflexivity.
Qed.

Lemma wp_pan_written : wp_pan_write wp_fac false wp_on [] "active" wp_frames wp_marked = (true, wp_pan_full).
Proof.
  unfold wp_pan_full. destruct (wp_pan_write wp_fac false wp_on [] "active" wp_frames wp_marked) as [b db] eqn:E. cbn [snd].
  assert (fst (wp_pan_write wp_fac false wp_on [] "active" wp_frames wp_marked) = true) as H by (vm_compute; reflexivity). rewrite E in H. cbn [fst] in H. now rewrite H.
Qed.

Lemma wp_pan_same : NoDup (map fst wp_pan_moved) /\ same_rows wp_pan_full wp_pan_moved.
Proof. apply moved_same. apply (nodup_b_ok String.eqb String.eqb_eq). vm_compute. reflexivity. Qed.

Lemma gentle_id l : gentle (fun l => l) l.
Proof. unfold gentle. induction l; constructor; auto. apply alike_refl. Qed.

(** A child without a parent. *)
Definition wp_orphan (t : string) : list (list value) :=
  if String.eqb t "child" then [[VStr "nobody"; int 1; int 2]] else [].

(** [progress] says stop after the second table. *)
Definition wp_stop : nat -> bool := fun i => Nat.eqb i 0.
