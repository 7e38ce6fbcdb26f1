(** * Property theorems: C169 (writing to Postgres with a dsn). *)
From Coq Require Import ZArith Bool List String Ascii Arith Permutation.
From Verif Require Import PyVal PyValFacts PyDict PyStr TypeDict Data FindTypes FK Graph GraphFacts Obj ObjFacts ObjMore WfCheck Factory InfIO InfIOFacts Params Names
  Utils UtilsMore Json ObjRows TripFacts Pg PgFacts PgSchema PgWrite PgTrip PgRead PgStore PgMore PgWitness InfWitness JsonWitness PgDsn PgDsnFacts.
Import ListNotations.
Local Open Scope string_scope.
Local Open Scope list_scope.

(** The oracles are those of P_Pg.v. *)

(** Whatever the ordinary way writes is written with a dsn too, and leaves the same
    database, however many rows there are. *)
Theorem C169_same : forall date_of pg_text pg_num pg_stamp pg_bool pg_int pg_float pg_other f auto pre active d db db',
  write_data date_of pg_text pg_num pg_stamp pg_bool pg_int pg_float pg_other f auto pre active d db = (true, db') ->
  write_dsn date_of pg_text pg_num pg_stamp pg_bool pg_int pg_float pg_other f true pre active d db = (true, db').
Proof. exact dsn_same. Qed.
Print Assumptions C169_same.

(** A call that returns has replaced the rows of each table (or left them, with
    "append"), has added one row for each row of the object in its order, and has changed
    no other table. *)
Theorem C169_written : forall date_of pg_text pg_num pg_stamp pg_bool pg_int pg_float pg_other f connects pre active d db db',
  decl_ok (f_decl f) = true -> fks_within (f_fks f) (map fst (plain_schema f)) -> db_wf db -> obj_ok (plain_schema f) d ->
  write_dsn date_of pg_text pg_num pg_stamp pg_bool pg_int pg_float pg_other f connects pre active d db = (true, db') ->
  (forall t ts, In (t, ts) (plain_schema f) -> exists pt rows,
     dget String.eqb db t = Some pt /\
     dget String.eqb db' t = Some (with_rows pt ((if String.eqb (dget_or String.eqb pre t "delete") "delete" then [] else pt_rows pt) ++ rows)) /\
     Forall2 (stored_row date_of pg_text pg_num pg_stamp pg_bool pg_int pg_float pg_other f (act_of active db t) t ts pt) (full_rows (d t)) rows) /\
  forall t, ~ In t (map fst (plain_schema f)) -> dget String.eqb db' t = dget String.eqb db t.
Proof.
  intros date_of pg_text pg_num pg_stamp pg_bool pg_int pg_float pg_other f connects pre active d db db' Hd Hw.
  exact (dsn_exact _ _ _ _ _ _ _ _ f Hd Hw connects pre active d db db').
Qed.
Print Assumptions C169_written.

(** A call that raises has not added a row: each table is as it was, or (unless it is
    appended to) empty. *)
Theorem C169_failed : forall date_of pg_text pg_num pg_stamp pg_bool pg_int pg_float pg_other f connects pre active d db db',
  decl_ok (f_decl f) = true -> fks_within (f_fks f) (map fst (plain_schema f)) ->
  write_dsn date_of pg_text pg_num pg_stamp pg_bool pg_int pg_float pg_other f connects pre active d db = (false, db') ->
  forall t, match dget String.eqb db t with
            | None => dget String.eqb db' t = None
            | Some pt => exists rows, dget String.eqb db' t = Some (with_rows pt rows) /\
                (rows = pt_rows pt \/ rows = [] /\ deleted pre t = true /\ In t (map fst (plain_schema f)))
            end.
Proof.
  intros date_of pg_text pg_num pg_stamp pg_bool pg_int pg_float pg_other f connects pre active d db db' Hd Hw.
  exact (dsn_fails _ _ _ _ _ _ _ _ f Hd Hw connects pre active d db db').
Qed.
Print Assumptions C169_failed.

Definition wd_write := write_dsn wi_date wp_text wp_num wp_stamp wp_bool wp_int wp_float wp_other.

(** The ordinary case; the staff of C107, refused by the ordinary way, is accepted (Ann and her boss are
    in one statement); and an object that is refused. *)
Example C169_ex : wd_write wp_fac true [] "" wp_obj wp_db = (true, wp_full) /\
  fst (wp_write wp_staff false [] "" wp_team wp_staff_db) = false /\
  (exists db' pt, wd_write wp_staff true [] "" wp_team wp_staff_db = (true, db') /\ dget String.eqb db' "staff" = Some pt /\
     pt_rows pt = [[VStr "ann"; VStr "bob"]; [VStr "bob"; VNone]]) /\
  (exists db' pt, wd_write wp_fac true [] "" wp_bad wp_full = (false, db') /\ dget String.eqb db' "parent" = Some pt /\ pt_rows pt = []) /\
  wd_write wp_staff false [] "" wp_team wp_staff_db = (false, wp_staff_db) /\
  List.length (pages page_size (seq 0 250)) = 3.
Proof.
  refine (conj _ (conj _ (conj _ (conj _ (conj _ _))))); [vm_compute; reflexivity | vm_compute; reflexivity | | | vm_compute; reflexivity | vm_compute; reflexivity].
  - do 2 eexists. refine (conj _ (conj _ _)); vm_compute; reflexivity.
  - do 2 eexists. refine (conj _ (conj _ _)); vm_compute; reflexivity.
Qed.

(** A reference to a later row is found in the same statement only: [n] people, the first of which has the
    last as boss. *)
Fixpoint wd_name (n : nat) : string := match n with 0 => "a" | S n' => String "a" (wd_name n') end.
Definition wd_team (n : nat) : obj := fun _ =>
  OKeyed (map (fun i => (KAtom (VStr (wd_name i)), [if Nat.eqb i 0 then VStr (wd_name (n - 1)) else VNone])) (seq 0 n)).
Example C169_pages_ex : fst (wd_write wp_staff true [] "" (wd_team 100) wp_staff_db) = true /\
  fst (wd_write wp_staff true [] "" (wd_team 101) wp_staff_db) = false.
Proof. split; vm_compute; reflexivity. Qed.
