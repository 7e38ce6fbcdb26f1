(** * Rows with their keys inside: ticdatfactory.py 1288-1304 [_keyless].

    Generator tables and generic tables are left out. *)
From Coq Require Import ZArith Bool List String Arith.
From Verif Require Import PyVal PyDict Data FindTypes FK Obj.
Import ListNotations.
Local Open Scope string_scope.
Local Open Scope list_scope.

(** [pk if containerish(pk) else (pk,)], ticdatfactory.py 1298-1299. *)
Definition key_parts (k : pkey) : list value :=
  match k with KAtom v => [v] | KTup l => l end.

(** ticdatfactory.py 1294-1302: the dicts of one table. *)
Definition keyless_rows (ts : tschema) (tb : otable) : list (list (string * value)) :=
  match tb with
  | OKeyed l => map (fun kr => dupdate String.eqb (combine (tdf ts) (snd kr)) (combine (tpk ts) (key_parts (fst kr)))) l
  | OListed l => map (fun r => combine (tdf ts) r) l
  end.

(** ticdatfactory.py 1288-1304: the attributes of the object returned. *)
Definition keyless (sch : schema) (d : obj) : list (string * list (list (string * value))) :=
  map (fun tts => (fst tts, keyless_rows (snd tts) (d (fst tts)))) sch.
