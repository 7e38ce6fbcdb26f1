(** * Concrete database files. *)
From Coq Require Import ZArith Bool List String Ascii Arith Lia Permutation.
From Verif Require Import PyVal PyValFacts PyDict PyDictFacts PyStr ListFacts TypeDict Data FindTypes FindTypesFacts FK Graph GraphFacts
  Obj ObjFacts ObjMore WfCheck Factory FactoryFacts InfIO InfIOFacts Params Names NamesFacts Utils Json ObjRows JsonFacts TripFacts Sql
  Pg PgFacts PgWrite PgTrip PgRead InfWitness JsonWitness PgWitness FileDb FileDbFacts FileDbTrip FileDbDups FileDbWrite FileDbAccess.
Import ListNotations.
Local Open Scope string_scope.
Local Open Scope list_scope.

(** One date is text, no other can be stored; NaN is NULL. *)
Definition fw_store (ty : string) (v : value) : option value :=
  match v with
  | VNaN => Some VNone
  | VDate d => if Z.eqb d 5 then Some (VStr "2020-01-01") else None
  | _ => Some v
  end.
Definition fw_free (ks : list (list value)) (k : list value) : bool := negb (existsb (list_eqb value_eqb k) ks).
Definition fw_default (v : value) : value := VStr "default".
Definition fw_bare (t : string) : bool := negb (String.eqb t "group").

Definition fw_sql := sql_write_file fw_store fw_free wi_date fw_default wp_fac.
Definition fw_mdb := mdb_write_file fw_store fw_free wi_date fw_bare true wp_fac.

Definition fw_obj : obj := fun t =>
  if String.eqb t "parent" then OKeyed [(KAtom (VStr "b"), [VNum PInf; VDate 5]); (KAtom (VStr "a"), [int 999; VDate 5])]
  else if String.eqb t "child" then OKeyed [(KTup [VStr "a"; int 1], [int 2]); (KTup [VStr "b"; int 1], [int 3])]
  else if String.eqb t "log" then OListed [[VStr "it's"; int 1]; [VStr "it's"; int 1]]
  else if String.eqb t "parameters" then OKeyed [(KAtom (VStr "Big"), [int 7])]
  else OListed [].

(** The last row of the log cannot be stored. *)
Definition fw_bad : obj := fun t =>
  if String.eqb t "log" then OListed [[VStr "it's"; int 1]; [VStr "late"; VDate 6]] else fw_obj t.

(** A file with other column types, other order, a column of its own, old rows, and a table of
    somebody else. *)
Definition fw_db : filedb :=
  [("LOG", mkDT [mkDC "amount" "REAL" VNone; mkDC "what" "TEXT" VNone; mkDC "note" "TEXT" (VStr "-")] [] [[int 9; VStr "old"; VStr "n"]]);
   ("old", mkDT [mkDC "x" "TEXT" VNone] [] [[VStr "kept"]]);
   ("Parent", mkDT [mkDC "Day" "TEXT" VNone; mkDC "Code" "TEXT" VNone; mkDC "Cap" "REAL" VNone] ["Code"] [[VNone; VStr "z"; int 1]]);
   ("child", mkDT [mkDC "code" "TEXT" VNone; mkDC "No." "INT" VNone; mkDC "Amount" "" VNone] ["code"; "No."] []);
   ("parameters", mkDT [mkDC "Value" "TEXT" VNone; mkDC "Key" "TEXT" VNone] ["Key"] [])].

Definition fw_out (p : bool * option filedb) : filedb := match snd p with Some db => db | None => [] end.
Definition fw_full : filedb := fw_out (fw_sql true fw_obj (Some fw_db)).
Definition fw_order : list string := ["child"; "log"; "parent"; "parameters"].
Definition fw_mfull : filedb := fw_out (fw_mdb true fw_order fw_obj (Some fw_db)).

Definition done_b (p : bool * option filedb) : bool := fst p && match snd p with Some _ => true | None => false end.
Lemma done_ok : forall p, done_b p = true -> p = (true, Some (fw_out p)).
Proof. intros [b [db |]] H; unfold done_b in H; cbn [fst snd andb] in H; [rewrite andb_true_r in H; now subst | rewrite andb_false_r in H; discriminate]. Qed.

Lemma fw_ok : obj_ok (plain_schema wp_fac) fw_obj /\ obj_keys (plain_schema wp_fac) fw_obj /\ proper_keys (plain_schema wp_fac) fw_obj.
Proof. apply obj_b_ok. vm_compute. reflexivity. Qed.
Lemma fw_bad_ok : obj_ok (plain_schema wp_fac) fw_bad /\ obj_keys (plain_schema wp_fac) fw_bad /\ proper_keys (plain_schema wp_fac) fw_bad.
Proof. apply obj_b_ok. vm_compute. reflexivity. Qed.

Lemma fw_acyclic : acyclic (f_fks wp_fac).
Proof.
  assert (forall t u, edge (f_fks wp_fac) t u -> t = "child" /\ u = "parent") as H.
  { intros t u (k & Hk & <- & <-). assert (map (fun k => (fk_native k, fk_foreign k)) (f_fks wp_fac) = [("child", "parent")]) as E by (vm_compute; reflexivity).
    apply (in_map (fun k => (fk_native k, fk_foreign k))) in Hk. rewrite E in Hk. destruct Hk as [Hk | []]. injection Hk as <- <-. auto. }
  assert (forall a b, reaches (f_fks wp_fac) a b -> a = "parent" -> b = "parent") as Hr.
  { intros a b R Ea. destruct R as [| m c E _]; auto. apply H in E as [E _]. rewrite Ea in E. discriminate E. }
  intros t u E R. apply H in E as [-> ->]. specialize (Hr _ _ R eq_refl). discriminate Hr.
Qed.

Definition file_wf_b (db : filedb) : bool := forallb (fun tp => distinct_b (map (fun c => lower (dc_name c)) (dt_cols (snd tp)))) db.
Lemma file_wf_ok : forall db, file_wf_b db = true -> file_wf db.
Proof.
  intros db H n dt F. unfold file_wf_b in H. rewrite forallb_forall in H. apply dget_In in F as (t & _ & F). apply distinct_b_iff. exact (H _ F).
Qed.

Definition found_b (f : factory) (db : filedb) : bool := forallb (fun tts =>
  match get_db_table (map fst db) (fst tts), find_table db (fst tts) with
  | Ret (Some n), Some dt => String.eqb n (fst tts) && forallb (has_col dt) (tfields (snd tts))
  | _, _ => false
  end) (plain_schema f).
Lemma found_ok : forall f db, found_b f db = true -> all_found f db.
Proof.
  intros f db H t ts Hin. unfold found_b in H. rewrite forallb_forall in H. specialize (H _ Hin). cbn [fst snd] in H.
  destruct (get_db_table (map fst db) t) as [[n |] |]; try discriminate. destruct (find_table db t) as [dt |]; [| discriminate].
  apply andb_true_iff in H as [A B]. apply String.eqb_eq in A. subst n. split; auto. exists dt. split; auto. now rewrite forallb_forall in B.
Qed.

Definition file_trip_b (read : factory -> string -> string -> value -> outcome value) (W : writer) (f : factory) (db : filedb)
  (t : string) (ts : tschema) (x : string) (v w : value) : bool :=
  match find_table db t with
  | None => true
  | Some dt => forallb (fun c => negb (same_name (dc_name c) x) ||
      match W t ts x v with
      | Ret u => match fw_store (dc_type c) u with
                 | Some s => match read f t x s with Ret w' => value_eqb w' w | Raise => false end
                 | None => true
                 end
      | Raise => true
      end) (dt_cols dt)
  end.

Lemma file_trip_ok : forall read W f db t ts x v w, file_trip_b read W f db t ts x v w = true -> file_trip fw_store f read W db t ts x v w.
Proof.
  intros read W f db t ts x v w H dt c G Hc E u s A B. unfold file_trip_b in H. rewrite G in H. rewrite forallb_forall in H. specialize (H c Hc).
  apply orb_true_iff in H as [H | H]. { apply negb_true_iff in H. apply same_neq in H. contradiction. }
  rewrite A, B in H. destruct (read f t x s); [| discriminate]. apply value_eqb_eq in H. now subst.
Qed.

Definition file_cells_b read W (f : factory) (db : filedb) (d : obj) : bool :=
  forallb (fun tts => String.eqb (fst tts) "parameters" && has_params f ||
    forallb (fun r => forallb (fun xv => file_trip_b read W f db (fst tts) (snd tts) (fst xv) (snd xv) (snd xv)) (combine (tfields (snd tts)) r)) (full_rows (d (fst tts))))
    (plain_schema f).
Lemma file_cells_ok : forall read W f db d, file_cells_b read W f db d = true -> cells_kept f (file_trip fw_store f read W db) d.
Proof.
  intros read W f db d H t ts r x v Hin Hp Hr Hx. unfold file_cells_b in H. rewrite forallb_forall in H. specialize (H _ Hin). cbn [fst snd] in H.
  apply orb_true_iff in H as [H | H].
  - apply andb_true_iff in H as [A B]. apply String.eqb_eq in A. exfalso. exact (Hp B A).
  - rewrite forallb_forall in H. specialize (H _ Hr). rewrite forallb_forall in H. specialize (H _ Hx). now apply file_trip_ok.
Qed.

Definition fw_read := read_data_cell wi_date wi_float.
Definition fw_mread := general_read wi_date wi_float.
Definition fw_W := sql_cell wi_date wp_fac.
Definition fw_mW := mdb_cell wi_date wp_fac.

Lemma fw_params : forall read W db,
  file_trip_b read W wp_fac db "parameters" (mkT ["Key"] ["Value"]) "Key" (VStr "Big") (VStr "Big") = true ->
  file_trip_b read W wp_fac db "parameters" (mkT ["Key"] ["Value"]) "Value" (int 7) (int 7) = true ->
  params_kept wi_date wi_float wp_fac (file_trip fw_store wp_fac read W db) fw_obj.
Proof.
  intros read W db H1 H2 _ ts Hin. rewrite wp_plain in Hin. destruct Hin as [E | [E | [E | [E | []]]]]; try discriminate. injection E as <-.
  exists "Key", "Value", [(KAtom (VStr "Big"), [int 7])]. split; [reflexivity |]. split; [reflexivity |].
  intros k r [E | []]. injection E as <- <-. exists (VStr "Big"), (int 7), (int 7).
  refine (conj eq_refl (conj eq_refl (conj _ (conj _ _)))); [now apply file_trip_ok | now apply file_trip_ok |]; vm_compute; reflexivity.
Qed.

(** Tables in another order with their rows reversed. *)
Definition moved (db : filedb) : filedb := rev (map (fun tp => (fst tp, set_rows (snd tp) (rev (dt_rows (snd tp))))) db).

Lemma moved_file : forall db, NoDup (map lower (map fst db)) -> same_file db (moved db).
Proof.
  intros db Hn n. assert (forall (db : filedb) k dt, NoDup (map lower (map fst db)) -> In (k, dt) db -> lower k = lower n -> find_table db n = Some dt) as Hfind.
  { clear. intros db k dt. induction db as [| [k' dt'] db IH]; intros Hn Hin E; [contradiction |]. cbn [map fst] in Hn. apply NoDup_cons_iff in Hn as [N1 N2].
    unfold find_table. cbn [dget]. destruct Hin as [Hin | Hin].
    - injection Hin as -> ->. assert (same_name k n = true) as -> by (now apply same_iff). reflexivity.
    - assert (same_name k' n = false) as ->; [| now apply IH]. apply same_neq. intros E'. apply N1. rewrite E', <- E. apply in_map. now apply (in_map fst) in Hin. }
  assert (map fst (moved db) = rev (map fst db)) as Em. { unfold moved. rewrite map_rev, map_map. reflexivity. }
  destruct (find_table db n) as [dt |] eqn:F.
  - apply dget_In in F as (k & E & F). apply same_iff in E. exists (rev (dt_rows dt)). split; [| apply Permutation_rev].
    apply Hfind with k; auto.
    + rewrite Em, map_rev. now apply NoDup_rev.
    + unfold moved. apply in_rev. rewrite rev_involutive. apply in_map_iff. exists (k, dt). auto.
  - unfold find_table in F. rewrite dget_None in F. apply dget_None. intros k dt Hk. unfold moved in Hk. apply in_rev in Hk.
    apply in_map_iff in Hk as ([k0 dt0] & E & Hk). injection E as <- _. eauto.
Qed.

Definition names_b (db : filedb) : bool := distinct_b (map lower (map fst db)).
Lemma moved_ok : forall db, names_b db = true -> same_file db (moved db).
Proof. intros db H. apply moved_file. now apply distinct_b_iff. Qed.

(** ** Duplicates *)

(** A key field with dates, in a file two spellings of one day. *)
Definition fw_days : factory := run (fun _ => false) (wp_base [("days", Fields (mkT ["Day"] ["Cost"]))]) [OSetType "days" "Day" wi_day].
Definition fw_date (v : value) : option Z :=
  match v with VStr "2020-01-01" => Some 5%Z | VStr "Jan 1 2020" => Some 5%Z | _ => None end.
Definition fw_days_db : filedb :=
  [("days", mkDT [mkDC "Day" "TEXT" VNone; mkDC "Cost" "REAL" VNone] ["Day"] [[VStr "2020-01-01"; int 1]; [VStr "Jan 1 2020"; int 2]])].

(** A file with a key twice; SQLite texts for true. *)
Definition fw_twice : filedb :=
  [("Child", mkDT [mkDC "code" "TEXT" VNone; mkDC "No." "" VNone; mkDC "Amount" "" VNone] []
      [[VStr "a"; int 1; int 1]; [VStr "true"; int 1; int 5]; [VStr "a"; int 2; int 3]; [VStr "TRUE"; int 1; int 6]; [VStr "a"; int 1; int 4]; [VStr "true"; int 1; int 5]])].

(** ** Infinity *)

(** Cap has infinity, written as NULL. *)
Definition fw_null : factory := wi_fac VNone.
Definition fw_inf : obj := fun t =>
  if String.eqb t "items" then OKeyed [(KAtom (VStr "a"), [int 1; VNum PInf; VNone])] else OKeyed [].
(** Columns without infinity. *)
Definition fw_finite (ty : string) (v : value) : option value := match v with VNum PInf | VNum NInf => None | _ => Some v end.

Lemma fw_order_ok : Permutation fw_order (map fst (plain_schema wp_fac)).
Proof.
  rewrite wp_plain. cbn [map fst]. unfold fw_order. apply Permutation_sym. apply (Permutation_cons_app ["child"; "log"; "parent"] []). cbn [app]. apply perm_skip. apply perm_swap.
Qed.
