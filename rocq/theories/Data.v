(** * Schemas and data objects.

    ticdatfactory.py 635-700 (schema), 766-870 (TicDat objects).  Only
    non-generic, non-generator tables are represented; generic tables
    (DataFrames) have no types or foreign keys and generator tables are skipped
    or rejected by the functions modelled on top of this file. *)
From Coq Require Import ZArith Bool List String Arith.
From Verif Require Import PyVal PyDict.
Import ListNotations.

(** One table: primary key fields and data fields
    ([primary_key_fields[t]], [data_fields[t]]; ticdatfactory.py 675-677). *)
Record tschema : Type := mkT { tpk : list string; tdf : list string }.

(** [tdf.schema()] without the ancillary information, ticdatfactory.py 69-99. *)
Definition schema := list (string * tschema).

(** [primary_key_fields[t] + data_fields[t]], ticdatfactory.py 675-677. *)
Definition tfields (ts : tschema) : list string := tpk ts ++ tdf ts.

(** The data of a row, aligned with [tdf]
    ([TicDatDataRow._data], utils.py 1050-1109). *)
Definition row := list value.

(** A table of a TicDat object: a dict from primary key to row, or a list of
    rows when there is no primary key (ticdatfactory.py 776-859). *)
Inductive table : Type :=
| Keyed  : list (key * row) -> table
| Listed : list row -> table.

(** A TicDat object: attribute access [getattr(dat, t)] (ticdatfactory.py 776-859). *)
Definition dat := string -> table.

(** How reports identify a row: its primary key, or its position (ticdatfactory.py 1745, 1759-1761). *)
Inductive rowid : Type :=
| RPk  : key -> rowid
| RIdx : nat -> rowid.

(** Python [==] of such identifiers, as in the sets of ticdatfactory.py 1875. *)
Definition rowid_pyeq (a b : rowid) : bool :=
  match a, b with
  | RPk k, RPk k' => key_pyeq k k'
  | RIdx i, RIdx j => Nat.eqb i j
  | _, _ => false
  end.

(** [enumerate(l)] starting at [i] (ticdatfactory.py 1745). *)
Fixpoint enum_from {A} (i : nat) (l : list A) : list (nat * A) :=
  match l with
  | [] => []
  | x :: l' => (i, x) :: enum_from (S i) l'
  end.

(** [tbl.items() if dictish(tbl) else enumerate(tbl)]
    (e.g. ticdatfactory.py 1745, 1759-1761): row identifier, key and row.
    For list tables the key component is empty. *)
Definition rows_of (tb : table) : list (rowid * key * row) :=
  match tb with
  | Keyed l => map (fun kr => (RPk (fst kr), fst kr, snd kr)) l
  | Listed l => map (fun ir => (RIdx (fst ir), [], snd ir)) (enum_from 0 l)
  end.

(** A table without rows, ticdatfactory.py 776-859. *)
Definition empty_table (ts : tschema) : table :=
  match tpk ts with [] => Listed [] | _ => Keyed [] end.

(** Assigning attribute [t] (used to thread mutation of one table) (ticdatfactory.py 1817-1826, 1956-1959). *)
Definition upd_tbl (d : dat) (t : string) (tb : table) : dat :=
  fun t' => if String.eqb t t' then tb else d t'.

(** ** Well-formedness (what [good_tic_dat_object] checks,
    ticdatfactory.py 1118-1287, together with the schema checks 653-671). *)

Definition wf_tschema (ts : tschema) : Prop := NoDup (tfields ts).

(** ticdatfactory.py 653-671: names are distinct. *)
Definition wf_schema (sch : schema) : Prop :=
  NoDup (map fst sch) /\ forall t ts, In (t, ts) sch -> wf_tschema ts.

(** Primary keys of a dict are pairwise different under Python [==] (ticdatfactory.py 703-731). *)
Definition distinct_keys (ks : list key) : Prop :=
  NoDup (map (map canon) ks).

(** What ticdatfactory.py 1165-1287 accepts: rows with as many cells as fields. *)
Definition wf_table (ts : tschema) (tb : table) : Prop :=
  match tb with
  | Keyed l => tpk ts <> [] /\ distinct_keys (map fst l) /\
               forall k r, In (k, r) l -> List.length k = List.length (tpk ts) /\
                                          List.length r = List.length (tdf ts)
  | Listed l => tpk ts = [] /\ forall r, In r l -> List.length r = List.length (tdf ts)
  end.

(** All tables of the object, ticdatfactory.py 1118-1153. *)
Definition wf_dat (sch : schema) (d : dat) : Prop :=
  forall t ts, In (t, ts) sch -> wf_table ts (d t).
