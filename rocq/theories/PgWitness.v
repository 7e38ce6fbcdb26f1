(** * Concrete Postgres schemas and databases. *)
From Coq Require Import ZArith Bool List String Ascii Arith Lia Permutation.
From Verif Require Import PyVal PyValFacts PyDict PyDictFacts PyStr ListFacts TypeDict Data FindTypes FindTypesFacts FK Graph GraphFacts
  Obj ObjFacts ObjMore WfCheck Factory FactoryFacts InfIO InfIOFacts Params Names NamesFacts Utils Json ObjRows JsonFacts TripFacts
  Pg PgFacts PgSchema PgWrite PgTrip PgRead PgStore PgMore InfWitness JsonWitness.
Import ListNotations.
Local Open Scope string_scope.
Local Open Scope list_scope.

(** ** Deciding the hypotheses on objects *)

Definition table_ok_b (ts : tschema) (tb : otable) : bool :=
  match tpk ts, tb with
  | [], OListed l => forallb (fun r => Nat.eqb (List.length r) (List.length (tdf ts))) l
  | _ :: _, OKeyed l => forallb (fun kr =>
      (match fst kr with KAtom _ => Nat.eqb (List.length (tpk ts)) 1 | KTup k => Nat.eqb (List.length k) (List.length (tpk ts)) end) &&
      Nat.eqb (List.length (snd kr)) (List.length (tdf ts))) l
  | _, _ => false
  end.

Definition key_eq_b (a b : pkey) : bool :=
  match a, b with
  | KAtom x, KAtom y => value_eqb x y
  | KTup x, KTup y => list_eqb value_eqb x y
  | _, _ => false
  end.

Lemma key_eq_b_iff : forall a b, key_eq_b a b = true <-> a = b.
Proof.
  intros [x | x] [y | y]; simpl; try (split; [discriminate | congruence]).
  - rewrite value_eqb_eq. split; congruence.
  - rewrite (list_eqb_eq value_eqb value_eqb_eq). split; congruence.
Qed.

Definition obj_b (sch : schema) (d : obj) : bool :=
  forallb (fun tts => table_ok_b (snd tts) (d (fst tts)) &&
    match d (fst tts) with
    | OKeyed l => nodup_b key_eq_b (map canon_key (map fst l)) && forallb (fun kr => key_eq_b (fst kr) (packed (key_cells (fst kr)))) l
    | OListed _ => true
    end) sch.

Lemma obj_b_ok : forall sch d, obj_b sch d = true -> obj_ok sch d /\ obj_keys sch d /\ proper_keys sch d.
Proof.
  intros sch d H. unfold obj_b in H. rewrite forallb_forall in H. split; [| split].
  - intros t ts Hin. specialize (H _ Hin). apply andb_true_iff in H as [H _]. cbn [fst snd] in H. unfold table_ok_b in H. unfold table_ok.
    destruct (tpk ts) as [| p pk] eqn:E, (d t) as [l | l]; try discriminate H.
    + intros r Hr. rewrite forallb_forall in H. apply Nat.eqb_eq. auto.
    + intros k r Hr. rewrite forallb_forall in H. specialize (H _ Hr). cbn [fst snd] in H. apply andb_true_iff in H as [H1 H2]. apply Nat.eqb_eq in H2. split; auto.
      unfold key_shape. rewrite E. destruct k; now apply Nat.eqb_eq.
  - intros t ts Hin. specialize (H _ Hin). apply andb_true_iff in H as [_ H]. cbn [fst snd] in H. destruct (d t) as [l | l]; auto.
    apply andb_true_iff in H as [H _]. now apply (nodup_b_ok key_eq_b key_eq_b_iff).
  - intros t ts Hin. specialize (H _ Hin). apply andb_true_iff in H as [_ H]. cbn [fst snd] in H. destruct (d t) as [l | l]; auto.
    apply andb_true_iff in H as [_ H]. rewrite forallb_forall in H. intros k r Hr. apply key_eq_b_iff. exact (H _ Hr).
Qed.

Definition fks_within_b (f : factory) : bool := forallb (fun k => mem_str (fk_foreign k) (map fst (plain_schema f))) (f_fks f).
Lemma fks_within_ok : forall f, fks_within_b f = true -> fks_within (f_fks f) (map fst (plain_schema f)).
Proof. intros f H k Hk. unfold fks_within_b in H. rewrite forallb_forall in H. apply mem_str_iff. auto. Qed.

Definition db_wf_b (db : pgdb) : bool :=
  nodup_b String.eqb (map fst db) &&
  forallb (fun tp => nodup_b String.eqb (map c_name (pt_cols (snd tp))) &&
                     forallb (fun r => Nat.eqb (List.length r) (List.length (pt_cols (snd tp)))) (pt_rows (snd tp))) db.
Lemma db_wf_ok : forall db, db_wf_b db = true -> db_wf db.
Proof.
  intros db H. apply andb_true_iff in H as [H1 H2]. split; [now apply (nodup_b_ok String.eqb String.eqb_eq) |].
  rewrite forallb_forall in H2. intros t pt Hin. specialize (H2 _ Hin). cbn [snd] in H2. apply andb_true_iff in H2 as [A B].
  split; [now apply (nodup_b_ok String.eqb String.eqb_eq) |]. rewrite forallb_forall in B. intros r Hr. apply Nat.eqb_eq. auto.
Qed.

(** ** What Postgres does with a few literals *)

Definition wp_text (v : value) : string := if value_eqb v (int 1) then "1" else if value_eqb v (int 7) then "7" else "?".
Definition wp_num (s : string) : option num := if String.eqb s "7" then Some (of_int 7) else None.
Definition wp_stamp (s : string) : option Z := if String.eqb s "2020-01-01" then Some 5%Z else None.
Definition wp_bool (s : string) : option bool := if String.eqb s "t" then Some true else None.
Definition wp_int (z : Z) : option Z := Some z.
Definition wp_float (z : Z) : Z := z.
Definition wp_other (s : string) (v : value) : option value := None.

Definition wp_schema := write_schema wp_text wp_num wp_stamp wp_bool wp_int wp_float wp_other.
Definition wp_write := write_data wi_date wp_text wp_num wp_stamp wp_bool wp_int wp_float wp_other.
Definition wp_read := pg_create wi_date wi_float.

(** ** Parents, children, a log and parameters *)

Definition wp_base (decl : list (string * tdecl)) : factory :=
  match init decl with Some f => f | None => mkF [] [] [] [] [] [] [] [] false VNone VNone VNone VNone false end.
Definition wp_string : dtargs := mkArgs false true true (VNum NInf) (VNum PInf) false AStar false false.
Definition wp_integer : dtargs := mkArgs true true true (VNum (of_int 0)) (VNum PInf) true (AList []) false false.

Definition wp_fac : factory :=
  run (fun _ => false)
    (wp_base [("parameters", Fields (mkT ["Key"] ["Value"])); ("child", Fields (mkT ["Code"; "No."] ["Amount"]));
              ("parent", Fields (mkT ["Code"] ["Cap"; "Day"])); ("log", Fields (mkT [] ["What"; "Amount"]))])
    [OSetType "parent" "Cap" wi_cap; OSetType "parent" "Day" wi_day; OSetType "child" "No." wp_integer; OSetType "log" "What" wp_string;
     OSetDefault "log" "What" (VStr "it''s"); OAddParam (VStr "Big") (int 3) wi_any true;
     OAddFk "child" "parent" (Simple "Code" "Code"); OFlag wi_big].

(** Both fields of a link refer to the same field of a node. *)
Definition wp_twin : factory :=
  run (fun _ => false) (wp_base [("node", Fields (mkT ["Name"] [])); ("link", Fields (mkT ["Tail"; "Head"] []))])
    [OAddFk "link" "node" (Compound [("Tail", "Name"); ("Head", "Name")])].

Definition wp_obj : obj := fun t =>
  if String.eqb t "parent" then OKeyed [(KAtom (VStr "b"), [VNum PInf; VDate 5]); (KAtom (VStr "a"), [int 999; VDate 6])]
  else if String.eqb t "child" then OKeyed [(KTup [VStr "a"; int 1], [int 2]); (KTup [VStr "b"; int 1], [int 3])]
  else if String.eqb t "log" then OListed [[VStr "it's"; int 1]; [VStr "it's"; int 1]]
  else if String.eqb t "parameters" then OKeyed [(KAtom (VStr "Big"), [int 7])]
  else OListed [].

(** A table of somebody else. *)
Definition wp_old : pgdb := [("old", mkPT [mkCol "x" CText false None] [] [] [[VStr "kept"]])].
Definition wp_db : pgdb := match wp_schema wp_fac [] true wp_old with Ret db => db | Raise => [] end.
Definition wp_full : pgdb := snd (wp_write wp_fac false [] "" wp_obj wp_db).


Lemma wp_plain : plain_schema wp_fac =
  [("parameters", mkT ["Key"] ["Value"]); ("child", mkT ["Code"; "No."] ["Amount"]);
   ("parent", mkT ["Code"] ["Cap"; "Day"]); ("log", mkT [] ["What"; "Amount"])].
Proof. vm_compute. reflexivity. Qed.

Lemma wp_ok : obj_ok (plain_schema wp_fac) wp_obj /\ obj_keys (plain_schema wp_fac) wp_obj /\ proper_keys (plain_schema wp_fac) wp_obj.
Proof. apply obj_b_ok. vm_compute. reflexivity. Qed.

Lemma wp_within : fks_within (f_fks wp_fac) (map fst (plain_schema wp_fac)).
Proof. apply fks_within_ok. vm_compute. reflexivity. Qed.

Lemma wp_db_wf : db_wf wp_db.
Proof. apply db_wf_ok. vm_compute. reflexivity. Qed.

Lemma wp_made : wp_schema wp_fac [] true wp_old = Ret wp_db.
Proof.
  unfold wp_db. destruct (wp_schema wp_fac [] true wp_old) as [db |] eqn:E; auto. exfalso.
  assert (match wp_schema wp_fac [] true wp_old with Ret _ => true | Raise => false end = true) as H by (vm_compute; reflexivity). now rewrite E in H.
Qed.

Lemma wp_written : wp_write wp_fac false [] "" wp_obj wp_db = (true, wp_full).
Proof.
  unfold wp_full. destruct (wp_write wp_fac false [] "" wp_obj wp_db) as [b db] eqn:E. cbn [snd].
  assert (fst (wp_write wp_fac false [] "" wp_obj wp_db) = true) as H by (vm_compute; reflexivity). rewrite E in H. cbn [fst] in H. now rewrite H.
Qed.

Definition trip_b (f : factory) (db : pgdb) (t x : string) (v w : value) : bool :=
  match dget String.eqb db t with
  | None => true
  | Some pt => forallb (fun c => negb (String.eqb (c_name c) (pg_name x)) ||
      match pg_write_cell wi_date f t x v with
      | Ret u => match coerce wp_text wp_num wp_stamp wp_bool wp_int wp_float wp_other (c_type c) u with
                 | Some s => match pg_read_cell wi_date wi_float f t x s with Ret w' => value_eqb w' w | Raise => false end
                 | None => true
                 end
      | Raise => true
      end) (pt_cols pt)
  end.

Lemma trip_b_ok : forall f db t ts x v w, trip_b f db t x v w = true ->
  pg_trip wi_date wi_float wp_text wp_num wp_stamp wp_bool wp_int wp_float wp_other f db t ts x v w.
Proof.
  intros f db t ts x v w H pt c G Hc E u s A B. unfold trip_b in H. rewrite G in H. rewrite forallb_forall in H. specialize (H c Hc).
  apply orb_true_iff in H as [H | H]. { rewrite E, String.eqb_refl in H. discriminate. }
  rewrite A, B in H. destruct (pg_read_cell wi_date wi_float f t x s); [| discriminate]. apply value_eqb_eq in H. now subst.
Qed.

Definition cells_b (f : factory) (db : pgdb) (d : obj) : bool :=
  forallb (fun tts => String.eqb (fst tts) "parameters" && has_params f ||
    forallb (fun r => forallb (fun xv => trip_b f db (fst tts) (fst xv) (snd xv) (snd xv)) (combine (tfields (snd tts)) r)) (full_rows (d (fst tts))))
    (plain_schema f).

Lemma cells_b_ok : forall f db d, cells_b f db d = true ->
  cells_kept f (pg_trip wi_date wi_float wp_text wp_num wp_stamp wp_bool wp_int wp_float wp_other f db) d.
Proof.
  intros f db d H t ts r x v Hin Hp Hr Hx. unfold cells_b in H. rewrite forallb_forall in H. specialize (H _ Hin). cbn [fst snd] in H.
  apply orb_true_iff in H as [H | H].
  - apply andb_true_iff in H as [A B]. apply String.eqb_eq in A. exfalso. exact (Hp B A).
  - rewrite forallb_forall in H. specialize (H _ Hr). rewrite forallb_forall in H. specialize (H _ Hx). now apply trip_b_ok.
Qed.

Lemma wp_cells : cells_kept wp_fac (pg_trip wi_date wi_float wp_text wp_num wp_stamp wp_bool wp_int wp_float wp_other wp_fac wp_db) wp_obj.
Proof. apply cells_b_ok. vm_compute. reflexivity. Qed.

Lemma wp_params : params_kept wi_date wi_float wp_fac (pg_trip wi_date wi_float wp_text wp_num wp_stamp wp_bool wp_int wp_float wp_other wp_fac wp_db) wp_obj.
Proof.
  intros _ ts Hin. rewrite wp_plain in Hin. destruct Hin as [E | [E | [E | [E | []]]]]; try discriminate. injection E as <-.
  exists "Key", "Value", [(KAtom (VStr "Big"), [int 7])]. split; [reflexivity |]. split; [reflexivity |].
  intros k r [E | []]. injection E as <- <-. exists (VStr "Big"), (int 7), (VStr "7").
  refine (conj eq_refl (conj eq_refl (conj _ (conj _ _)))); [apply trip_b_ok | apply trip_b_ok |]; vm_compute; reflexivity.
Qed.

(** Tables in another order with their rows reversed. *)
Definition wp_moved : pgdb := rev (map (fun tp => (fst tp, with_rows (snd tp) (rev (pt_rows (snd tp))))) wp_full).

Lemma moved_same : forall db, NoDup (map fst db) ->
  NoDup (map fst (rev (map (fun tp => (fst tp, with_rows (snd tp) (rev (pt_rows (snd tp))))) db))) /\
  same_rows db (rev (map (fun tp => (fst tp, with_rows (snd tp) (rev (pt_rows (snd tp))))) db)).
Proof.
  intros db Hn. assert (NoDup (map fst (rev (map (fun tp : string * pgtable => (fst tp, with_rows (snd tp) (rev (pt_rows (snd tp))))) db)))) as Hn'.
  { rewrite map_rev. apply NoDup_rev. rewrite map_map. exact Hn. }
  split; auto. intros t pt G. exists (rev (pt_rows pt)). split; [| apply Permutation_rev]. apply dget_str; auto. apply in_rev. rewrite rev_involutive.
  apply (dget_str _ _ _ Hn) in G. apply in_map_iff. exists (t, pt). auto.
Qed.

Lemma wp_same : NoDup (map fst wp_moved) /\ same_rows wp_full wp_moved.
Proof. apply moved_same. apply (nodup_b_ok String.eqb String.eqb_eq). vm_compute. reflexivity. Qed.

(** ** Schemas that Postgres refuses *)

(** A foreign key to a part of the key. *)
Definition wp_part : factory :=
  run (fun _ => false) (wp_base [("orders", Fields (mkT ["Cust"; "Item"] [])); ("notes", Fields (mkT ["No"] ["Cust"]))])
    [OAddFk "notes" "orders" (Simple "Cust" "Cust"); OSetType "notes" "Cust" wp_string].
(** A quote in a default. *)
Definition wp_quote : factory :=
  run (fun _ => false) (wp_base [("log", Fields (mkT [] ["What"]))]) [OSetType "log" "What" wp_string; OSetDefault "log" "What" (VStr "it's")].
(** A time in a field whose default is left at 0. *)
Definition wp_when : factory := wp_base [("log", Fields (mkT [] ["Moment"]))].

(** ** Numeric keys without a type *)

Definition wp_ids : factory := wp_base [("items", Fields (mkT ["Id"] ["Cost"]))].
Definition wp_one : obj := fun _ => OKeyed [(KAtom (int 1), [int 2])].
Definition wp_ids_db : pgdb := match wp_schema wp_ids [] true [] with Ret db => db | Raise => [] end.
Definition wp_ids_full : pgdb := snd (wp_write wp_ids false [] "" wp_one wp_ids_db).

(** ** A child without parent *)

Definition wp_bad : obj := fun t =>
  if String.eqb t "child" then OKeyed [(KTup [VStr "nobody"; int 1], [int 2])]
  else if String.eqb t "log" then OListed [] else OKeyed [].

(** ** Employees and their bosses *)

Definition wp_staff : factory :=
  run (fun _ => false) (wp_base [("staff", Fields (mkT ["Id"] ["Boss"]))])
    [OSetType "staff" "Boss" (mkArgs false true true (VNum NInf) (VNum PInf) false AStar true false);
     OSetDefault "staff" "Boss" VNone; OAddFk "staff" "staff" (Simple "Boss" "Id")].
Definition wp_team : obj := fun _ => OKeyed [(KAtom (VStr "ann"), [VStr "bob"]); (KAtom (VStr "bob"), [VNone])].
Definition wp_staff_db : pgdb := match wp_schema wp_staff [] true [] with Ret db => db | Raise => [] end.

(** ** A column that says which rows are active *)

Definition wp_marked : pgdb :=
  map (fun tp => if String.eqb (fst tp) "parent"
                 then (fst tp, mkPT (pt_cols (snd tp) ++ [mkCol "active" CBool false None]) (pt_key (snd tp)) (pt_fks (snd tp))
                                 [[VStr "b"; int 1; VDate 5; VBool true]; [VStr "c"; int 2; VDate 5; VBool false]; [VStr "d"; int 2; VDate 5; VNone]])
                 else tp) wp_db.

(** ** The rows of the example as they are stored *)

Definition wp_store (t : string) : list (list value) :=
  if String.eqb t "old" then [] else match dget String.eqb wp_full t with Some pt => pt_rows pt | None => [] end.

Lemma wp_no_circle : forall k, In k (f_fks wp_fac) -> ~ reaches (f_fks wp_fac) (fk_foreign k) (fk_native k).
Proof.
  assert (forall t u, reaches (f_fks wp_fac) t u -> t <> u -> t = "child") as H.
  { intros t u R. induction R as [| t u v (k & Hk & E1 & E2) R IH]; intros N; [congruence |]. vm_compute in Hk. destruct Hk as [<- | []]. exact (eq_sym E1). }
  intros k Hk R. vm_compute in Hk. destruct Hk as [<- | []]. cbn [fk_native fk_foreign] in R. specialize (H _ _ R). assert ("parent" = "child") as X by (apply H; discriminate). discriminate X.
Qed.

(** Two rows with the same key, in a database without constraints. *)
Definition wp_twice : pgdb :=
  [("child", mkPT [mkCol "code" CText false None; mkCol "amount" CFloat false None; mkCol "no_" CInteger false None] [] []
               [[VStr "a"; int 5; int 1]; [VStr "a"; int 6; int 2]; [VStr "a"; int 7; int 1]])].

Lemma wp_twice_ok : names_ok wp_fac = true /\ NoDup (map fst wp_twice) /\
  (forall t ts pt, In (t, ts) (plain_schema wp_fac) -> dget String.eqb wp_twice t = Some pt -> forall x, In x (tpk ts) -> In (pg_name x) (map c_name (pt_cols pt))) /\
  stored_keys "" wp_twice "child" (mkT ["Code"; "No."] ["Amount"]) = [[VStr "a"; int 1]; [VStr "a"; int 2]; [VStr "a"; int 1]] /\
  exists k, pg_duplicates wi_date wi_float wp_fac "" wp_twice = Ret [("child", [(k, 2)])] /\ key_pyeq k [VStr "a"; int 1] = true.
Proof.
  refine (conj _ (conj _ (conj _ (conj _ _)))).
  - vm_compute; reflexivity.
  - repeat constructor. intros [].
  - rewrite wp_plain. intros t ts pt [E | [E | [E | [E | []]]]]; injection E as <- <-; intros G; try discriminate G. injection G as <-.
    intros x Hx. simpl in Hx. destruct Hx as [<- | [<- | []]]; vm_compute; auto.
  - vm_compute; reflexivity.
  - eexists. split; vm_compute; reflexivity.
Qed.

Lemma wp_types : forall t ts x, In (t, ts) (plain_schema wp_fac) -> In x (tfields ts) -> exists c, column_type wp_fac [] t ts x c /\
  (In x (tdf ts) -> default_fits wp_int wp_fac [] t x c).
Proof.
  rewrite wp_plain. intros t ts x [E | [E | [E | [E | []]]]]; injection E as <- <-; intros Hx; simpl in Hx;
    repeat (destruct Hx as [<- | Hx];
      [eexists; split; [apply fld_type_spec; [reflexivity | vm_compute; reflexivity] |
        intros Hy; first [exfalso; simpl in Hy; intuition discriminate |
                          eapply df_time; [reflexivity | vm_compute; reflexivity | vm_compute; reflexivity] |
                          apply df_null; left; vm_compute; reflexivity |
                          eapply df_num; [vm_compute; reflexivity | tauto] |
                          eapply df_num; [vm_compute; reflexivity | right; right; split; [reflexivity | vm_compute; discriminate]] |
                          eapply df_text; [vm_compute; reflexivity | reflexivity | vm_compute; reflexivity]]] |]); contradiction.
Qed.

Lemma wp_whole : forall k, In k (f_fks wp_fac) -> whole_key wp_fac [] k.
Proof.
  intros k Hk. vm_compute in Hk. destruct Hk as [<- | []]. split; [split; [discriminate | now apply (nodup_b_ok String.eqb String.eqb_eq)] |]. intros ts fts. rewrite wp_plain. cbn [fk_native fk_foreign fk_map].
  intros [E | [E | [E | [E | []]]]]; try discriminate E. injection E as <-.
  intros [E | [E | [E | [E | []]]]]; try discriminate E. injection E as <-. split; [apply Permutation_refl |].
  intros n x [E | []]. injection E as <- <-. split; [simpl; auto |].
  exists CText, CText. split; [apply fld_type_spec; [reflexivity | vm_compute; reflexivity] |]. split; [apply fld_type_spec; [reflexivity | vm_compute; reflexivity] | reflexivity].
Qed.

Lemma no_nulls : forall pt rows, forallb (fun r => forallb (fun x => negb (value_eqb (pg_cell pt r x) VNone)) (pt_key pt)) rows = true ->
  forall r x, In r rows -> In x (pt_key pt) -> pg_cell pt r x <> VNone.
Proof.
  intros pt rows H r x Hr Hx E. rewrite forallb_forall in H. specialize (H r Hr). rewrite forallb_forall in H. specialize (H x Hx). rewrite E in H. discriminate.
Qed.

Lemma wp_writable : names_ok wp_fac = true /\ no_generics wp_fac = true /\ db_wf wp_db /\ obj_ok (plain_schema wp_fac) wp_obj /\
  (forall t ts, In (t, ts) (plain_schema wp_fac) -> exists pt, dget String.eqb wp_db t = Some pt /\
     (forall x, In x (tfields ts) -> In (pg_name x) (map c_name (pt_cols pt))) /\ act_of "" wp_db t = None /\
     Forall2 (stored_row wi_date wp_text wp_num wp_stamp wp_bool wp_int wp_float wp_other wp_fac None t ts pt) (full_rows (wp_obj t)) (wp_store t) /\
     (pt_key pt <> [] -> NoDup (map (fun r => pg_cells pt r (pt_key pt)) (wp_store t)) /\
        forall r x, In r (wp_store t) -> In x (pt_key pt) -> pg_cell pt r x <> VNone) /\
     forall k, In k (pt_fks pt) ->
       (exists k0, In k0 (f_fks wp_fac) /\ fk_native k0 = t /\ fk_foreign k0 = g_table k) /\
       forall r, In r (wp_store t) -> exists pu r', dget String.eqb wp_db (g_table k) = Some pu /\ In r' (wp_store (g_table k)) /\
           pg_cells pu r' (g_foreign k) = pg_cells pt r (g_native k)) /\
  (forall k, In k (f_fks wp_fac) -> ~ reaches (f_fks wp_fac) (fk_foreign k) (fk_native k)) /\
  wp_write wp_fac false [] "" wp_obj wp_db = (true, wp_full).
Proof.
  refine (conj _ (conj _ (conj wp_db_wf (conj (proj1 wp_ok) (conj _ (conj wp_no_circle wp_written)))))); [vm_compute; reflexivity | vm_compute; reflexivity |].
  assert (decl_ok (f_decl wp_fac) = true) as Hd by (vm_compute; reflexivity).
  pose proof (write_exact wi_date wp_text wp_num wp_stamp wp_bool wp_int wp_float wp_other wp_fac Hd wp_within false [] "" wp_obj wp_db wp_full wp_db_wf (proj1 wp_ok) wp_written) as [W _].
  intros t ts Ht. destruct (W t ts Ht) as (pt & rows & G & G' & F). exists pt. split; [exact G |].
  assert (rows = wp_store t) as ->.
  { unfold wp_store. rewrite G'. destruct (String.eqb t "old") eqn:O.
    - apply String.eqb_eq in O. subst t. exfalso. rewrite wp_plain in Ht. simpl in Ht. intuition discriminate.
    - reflexivity. }
  clear G' W. rewrite wp_plain in Ht.
  destruct Ht as [E | [E | [E | [E | []]]]]; injection E as <- <-; vm_compute in G; injection G as <-.
  all: split; [intros x Hx; simpl in Hx; repeat (destruct Hx as [<- | Hx]; [vm_compute; tauto |]); contradiction |].
  all: split; [reflexivity |]; split; [exact F |]; clear F; split.
  1,3,5,7: intros Hk; first [exfalso; apply Hk; reflexivity |
    split; [apply (nodup_b_ok (list_eqb value_eqb) (list_eqb_eq value_eqb value_eqb_eq)); vm_compute; reflexivity | apply no_nulls; vm_compute; reflexivity]].
  all: intros k Hk; simpl in Hk; try contradiction.
  destruct Hk as [<- | []]. split; [eexists; split; [vm_compute; left; reflexivity | split; reflexivity] |].
  intros r Hr. vm_compute in Hr.
  destruct Hr as [<- | [<- | []]]; eexists; eexists; (split; [vm_compute; reflexivity |]);
    first [split; [vm_compute; left; reflexivity | vm_compute; reflexivity] | split; [vm_compute; right; left; reflexivity | vm_compute; reflexivity]].
Qed.

(** Only parameters. *)
Definition wp_opts : factory :=
  run (fun _ => false) (wp_base [("parameters", Fields (mkT ["Key"] ["Value"]))]) [OAddParam (VStr "Big") (int 3) wi_any true].
