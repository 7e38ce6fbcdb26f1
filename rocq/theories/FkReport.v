(** * The dictionaries find_foreign_key_failures returns: ticdatfactory.py 1690-1727 and 1782-1787,
      pandatfactory.py 1399-1439.

    The searches themselves are in FK.v.  A named tuple and a plain tuple with the same members are
    equal and hash alike, so the two kinds of values are not told apart. *)
From Coq Require Import ZArith Bool List String Arith.
From Verif Require Import PyVal PyDict Data FindTypes FK Factory InfIO.
Import ListNotations.
Local Open Scope string_scope.
Local Open Scope list_scope.

(** [tuple(k[2])]: a pair of field names, or a tuple of pairs (ticdatfactory.py 1786, pandatfactory.py 1438-1439). *)
Inductive lowmap : Type :=
| LOne : string -> string -> lowmap
| LMany : list (string * string) -> lowmap.

(** Keys of a "Low" dictionary, ticdatfactory.py 1786. *)
Definition lowkey : Type := (string * string * lowmap)%type.

(** [tuple(k[:2]) + (tuple(k[2]),)], ticdatfactory.py 1786, pandatfactory.py 1439. *)
Definition low_key (k : fk) : lowkey :=
  (fk_native k, fk_foreign k, match fk_map k with [(n, f)] => LOne n f | m => LMany m end).

(** Equality of such tuples, ticdatfactory.py 1786. *)
Definition low_eqb (a b : lowkey) : bool :=
  String.eqb (fst (fst a)) (fst (fst b)) && String.eqb (snd (fst a)) (snd (fst b)) &&
  match snd a, snd b with
  | LOne n f, LOne n' f' => String.eqb n n' && String.eqb f f'
  | LMany l, LMany m => list_eqb pair_eqb l m
  | _, _ => false
  end.

(** A dictionary keyed by foreign keys, or by plain tuples. *)
Inductive fkdict (V : Type) : Type :=
| ByKey : list (fk * V) -> fkdict V
| ByTuple : list (lowkey * V) -> fkdict V.
Arguments ByKey {V}.
Arguments ByTuple {V}.

(** ticdatfactory.py 1724, 1785-1787; pandatfactory.py 1433, 1438-1440. *)
Definition verbose {V} (verbosity : string) (rep : list (fk * V)) : outcome (fkdict V) :=
  if String.eqb verbosity "High" then Ret (ByKey rep)
  else if String.eqb verbosity "Low"
  then Ret (ByTuple (dict_of low_eqb (map (fun kv => (low_key (fst kv), snd kv)) rep)))
  else Raise.

(** ticdatfactory.py 1690-1787 *)
Definition tic_fk_report (sch : schema) (fks : list fk) (d : dat) (verbosity : string) (mx : num)
  : outcome (fkdict (list (list value) * list rowid)) :=
  match find_foreign_key_failures sch fks d mx with
  | None => Raise
  | Some rep => verbose verbosity rep
  end.

(** [table[rows]] with a list of booleans, pandatfactory.py 1437. *)
Definition rows_where (flags : list bool) (rows : list row) : list row :=
  map snd (filter fst (combine flags rows)).

(** The values: rows or booleans, pandatfactory.py 1437. *)
Inductive fkrows : Type :=
| TheRows : list row -> fkrows
| TheFlags : list bool -> fkrows.

(** pandatfactory.py 1399-1440 *)
Definition pan_fk_report (sch : schema) (fks : list fk) (d : pdat) (verbosity : string) (as_table : bool) (mx : num)
  : outcome (fkdict fkrows) :=
  if num_ltb (of_int 0) mx then
    verbose verbosity
      (map (fun fb => (fst fb, if as_table then TheRows (rows_where (snd fb) (d (fk_native (fst fb)))) else TheFlags (snd fb)))
         (pan_find_bounded sch fks d mx 0))
  else Raise.
