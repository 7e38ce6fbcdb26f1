(** * Concrete objects with generic tables. *)
From Coq Require Import ZArith Bool List String Ascii Arith Lia Permutation.
From Verif Require Import PyVal PyValFacts PyDict PyDictFacts PyStr ListFacts TypeDict Data FindTypes FindTypesFacts FK Graph GraphFacts Obj ObjFacts ObjMore WfCheck
  Factory FactoryFacts InfIO InfIOFacts Params Names NamesFacts Utils UtilsMore Ampl Json ObjRows JsonFacts TripFacts Sql SqlFacts Csv CsvFacts CsvMore
  Xls Pg PgFacts PgWrite PgTrip FileDb FileDbFacts FileDbTrip FileDbWrite InfWitness JsonWitness CsvWitness PgWitness FileDbWitness
  Generic GenericFacts GenericTrip GenericSql.
Import ListNotations.
Local Open Scope string_scope.
Local Open Scope list_scope.

Definition wg_decl : list (string * tdecl) :=
  [("my_items", Fields (mkT ["Name"] ["Cost"; "Code"])); ("my_notes", Generic); ("log", Fields (mkT [] ["What"])); ("extra", Generic)].
Definition wg_f0 : factory := match init wg_decl with Some f => f | None => wi_f0 end.
(** The flag is 1000, and Code has the default "". *)
Definition wg_fac : factory := run (fun _ => false) wg_f0 [OFlag (VNum (of_int 1000)); OSetDefault "my_items" "Code" (VStr "")].

Definition wg_obj : obj := fun t =>
  if String.eqb t "my_items" then OKeyed [(KAtom (VStr "b"), [VNum PInf; VStr "x"]); (KAtom (VStr "a"), [int 3; VStr "007"])]
  else OListed [[VStr "it's"]; [VStr "done"]].
Definition wg_g : generics := fun t =>
  if String.eqb t "my_notes" then mkG ["Who"; "Much"] [[VStr "me"; int 7]; [VStr "you"; int 2]; [VStr "me"; int 7]] else mkG ["c"] [].
(** The same, and no note. *)
Definition wg_none : generics := fun t => if String.eqb t "my_notes" then mkG ["Who"; "Much"] [] else wg_g t.

(** SQLite: a column of type INT stores text that looks like a number as a number. *)
Definition wg_store (ty : string) (v : value) : option value :=
  match v with
  | VStr s => if String.eqb ty "INT" && String.eqb s "007" then Some (int 7) else Some v
  | _ => fw_store ty v
  end.
Definition wg_pragma (t : string) : bool := negb (String.eqb t "order").

Definition wg_save := gen_csv_save wi_date wc_num wc_show wg_fac.
Definition wg_create := gen_csv_create wi_date wc_float wg_fac.
Definition wg_write := gen_sql_write wi_date fw_store fw_free fw_default wg_fac.
Definition wg_iwrite := gen_sql_write wi_date wg_store fw_free fw_default wg_fac.
Definition wg_read := gen_sql_read wi_date wi_float wg_pragma wg_fac.

Definition dir_of (o : outcome directory) : directory := match o with Ret dir => dir | Raise => [] end.
Definition wg_dir : directory := dir_of (wg_save true false false [] wg_g wg_obj).
Definition wg_db : filedb := fw_out (wg_write false wg_g wg_obj None).

Lemma wg_ok : obj_ok (plain_schema wg_fac) wg_obj /\ obj_keys (plain_schema wg_fac) wg_obj /\ proper_keys (plain_schema wg_fac) wg_obj.
Proof. apply obj_b_ok. vm_compute. reflexivity. Qed.

Definition frames_ok_b (f : factory) (g : generics) : bool := forallb (fun t =>
  Nat.eqb (List.length (g_rows (g t))) 0 ||
  negb (Nat.eqb (List.length (g_cols (g t))) 0) && distinct_b (map lower (g_cols (g t))) &&
  forallb (fun r => Nat.eqb (List.length r) (List.length (g_cols (g t)))) (g_rows (g t))) (generic_tables f).
Lemma frames_b_ok : forall f g, frames_ok_b f g = true -> frames_ok f g.
Proof.
  intros f g H t Hin Hne. unfold frames_ok_b in H. rewrite forallb_forall in H. specialize (H t Hin). apply orb_true_iff in H as [H | H].
  - apply Nat.eqb_eq in H. destruct (g_rows (g t)); [contradiction | discriminate].
  - rewrite !andb_true_iff in H. destruct H as [[A B] C]. split; [| split].
    + apply negb_true_iff in A. apply Nat.eqb_neq in A. destruct (g_cols (g t)); [contradiction | discriminate].
    + now apply distinct_b_iff.
    + intros r Hr. rewrite forallb_forall in C. apply Nat.eqb_eq. auto.
Qed.
Lemma wg_frames : frames_ok wg_fac wg_g /\ frames_ok wg_fac wg_none.
Proof. split; apply frames_b_ok; vm_compute; reflexivity. Qed.

(** A check of all the cells. *)
Definition all_cells_b (f : factory) (d : obj) (trip : string -> tschema -> string -> value -> bool) : bool :=
  forallb (fun tts => forallb (fun r => forallb (fun xv => trip (fst tts) (snd tts) (fst xv) (snd xv)) (combine (tfields (snd tts)) r)) (full_rows (d (fst tts)))) (plain_schema f).
Lemma all_cells_ok : forall f d trip_b (trip : string -> tschema -> string -> value -> value -> Prop),
  (forall t ts x v, trip_b t ts x v = true -> trip t ts x v v) -> all_cells_b f d trip_b = true -> cells_kept f trip d.
Proof.
  intros f d trip_b trip H A t ts r x v Hin _ Hr Hx. apply H. unfold all_cells_b in A. rewrite forallb_forall in A. specialize (A _ Hin). cbn [fst snd] in A.
  rewrite forallb_forall in A. specialize (A _ Hr). rewrite forallb_forall in A. exact (A _ Hx).
Qed.
Definition gen_all_b (f : factory) (g : generics) (trip : string -> string -> value -> bool) : bool :=
  forallb (fun t => forallb (fun r => forallb (fun xv => trip t (fst xv) (snd xv)) (combine (g_cols (g t)) r)) (g_rows (g t))) (generic_tables f).
Lemma gen_all_ok : forall f g trip_b (trip : string -> string -> value -> Prop), (forall t x v, trip_b t x v = true -> trip t x v) -> gen_all_b f g trip_b = true ->
  forall t r x v, In t (generic_tables f) -> In r (g_rows (g t)) -> In (x, v) (combine (g_cols (g t)) r) -> trip t x v.
Proof.
  intros f g trip_b trip H A t r x v Hin Hr Hx. apply H. unfold gen_all_b in A. rewrite forallb_forall in A. specialize (A _ Hin). cbn [fst snd] in A.
  rewrite forallb_forall in A. specialize (A _ Hr). rewrite forallb_forall in A. exact (A _ Hx).
Qed.

Definition ret_b (o : outcome value) (w : value) : bool := match o with Ret v => value_eqb v w | Raise => false end.
Lemma ret_b_ok : forall o w, ret_b o w = true -> o = Ret w.
Proof. intros [v |] w H; [| discriminate]. apply value_eqb_eq in H. now subst. Qed.

Lemma wg_text_cells : cells_kept wg_fac (text_trip wi_date wc_float wc_num wc_show wg_fac) wg_obj.
Proof.
  eapply all_cells_ok with (trip_b := fun t ts x v => ret_b (csv_cell wi_date wc_float wg_fac t x (VStr (csv_text wc_num wc_show v))) v).
  - intros t ts x v H. now apply ret_b_ok.
  - vm_compute. reflexivity.
Qed.
Lemma wg_text_gen : gen_cells_kept wi_date wc_float wc_num wc_show wg_fac wg_g.
Proof.
  unfold gen_cells_kept. eapply gen_all_ok with (trip_b := fun t x v => ret_b (gen_csv_cell wi_date wc_float wg_fac t x (VStr (csv_text wc_num wc_show v))) v).
  - intros t x v H. now apply ret_b_ok.
  - vm_compute. reflexivity.
Qed.

Lemma no_params_kept : forall date_of float_of f trip d, has_params f = false -> params_kept date_of float_of f trip d.
Proof. intros date_of float_of f trip d H H'. congruence. Qed.

Definition bare_b (store : string -> value -> option value) (f : factory) (t : string) (ts : tschema) (x : string) (v : value) : bool :=
  match store (bare_type ts x) (bare_cell ts v) with Some s => ret_b (read_data_cell wi_date wi_float f t x s) v | None => true end.
Lemma wg_bare_cells : cells_kept wg_fac (bare_trip wi_date wi_float fw_store wg_fac) wg_obj.
Proof.
  eapply all_cells_ok with (trip_b := bare_b fw_store wg_fac).
  - intros t ts x v H s E. unfold bare_b in H. rewrite E in H. now apply ret_b_ok.
  - vm_compute. reflexivity.
Qed.
Lemma wg_bare_gen : gen_cells_stored wi_date wi_float fw_store wg_fac wg_g.
Proof.
  intros t r x v Hin Hr Hx.
  pose (trip := fun (t x : string) v => forall s, fw_store "INT" v = Some s -> read_data_cell wi_date wi_float wg_fac t x s = Ret v). change (trip t x v). revert t r x v Hin Hr Hx.
  apply gen_all_ok with (trip_b := fun t x v => match fw_store "INT" v with Some s => ret_b (read_data_cell wi_date wi_float wg_fac t x s) v | None => true end).
  - intros t x v H s E. rewrite E in H. now apply ret_b_ok.
  - vm_compute. reflexivity.
Qed.

(** A file somebody made: spaces for underscores in the name of a table. *)
Definition wg_spaced (t : string) : filedb :=
  [(t, mkDT [mkDC "Who" "TEXT" VNone; mkDC "Much" "INT" VNone] [] [[VStr "me"; int 7]]);
   ("my items", mkDT [mkDC "Name" "" VNone; mkDC "Cost" "INT" VNone; mkDC "Code" "" VNone] ["Name"] [[VStr "b"; int 3; VStr "x"]]);
   ("log", mkDT [mkDC "What" "" VNone] [] [])].

(** Without the generic table that is empty. *)
Definition wg_half : factory :=
  match init [("my_items", Fields (mkT ["Name"] ["Cost"; "Code"])); ("my_notes", Generic); ("log", Fields (mkT [] ["What"]))] with Some f => f | None => wi_f0 end.
