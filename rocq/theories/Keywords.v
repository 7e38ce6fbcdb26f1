(** * Renaming fields that collide with reserved keywords (utils.py 808-835). *)
From Coq Require Import Bool List String Ascii Arith.
From Verif Require Import PyVal PyDict PyStr TypeDict Data FK FindTypes Factory.
Import ListNotations.
Local Open Scope string_scope.
Local Open Scope list_scope.

(** utils.py 815-824: the new name of one field; [None] is the failed verify. *)
Definition new_field (kw : list string) (undo : bool) (x : string) : option string :=
  if undo then
    Some (match x with String c x' => if Ascii.eqb c "_" then x' else x | EmptyString => x end)
  else if starts_with_char "_" x then None
  else Some (if mem_str (lower x) kw then String "_" x else x).

(** All verifies of utils.py 811-825 passed. *)
Fixpoint all_some {A} (l : list (option A)) : option (list A) :=
  match l with
  | [] => Some []
  | None :: _ => None
  | Some x :: l' => match all_some l' with Some r => Some (x :: r) | None => None end
  end.

(** utils.py 811-824 for one list of fields. *)
Definition new_fields kw undo (l : list string) : option (list string) := all_some (map (new_field kw undo) l).

(** utils.py 811-825: the new schema; [fields[1]] fails on the ['*'] of a generic table. *)
Definition new_decl kw undo (td : string * tdecl) : option (string * tdecl) :=
  match snd td with
  | Generic => None
  | Fields ts =>
      match new_fields kw undo (tpk ts), new_fields kw undo (tdf ts) with
      | Some p, Some d => Some (fst td, Fields (mkT p d))
      | _, _ => None
      end
  end.

(** utils.py 825: [mapping], as ((table, field), new field) in insertion order. *)
Definition mapping kw undo (decl : list (string * tdecl)) : list ((string * string) * string) :=
  flat_map (fun td =>
    match snd td with
    | Generic => []
    | Fields ts =>
        flat_map (fun x => match new_field kw undo x with Some y => [((fst td, x), y)] | None => [] end)
          (tpk ts ++ tdf ts)
    end) decl.

(** utils.py 827-833 *)
Definition copy_ops (f : factory) (m : (string * string) * string) : list op :=
  (match dget2 (f_defaults f) (fst (fst m)) (snd (fst m)) with
   | Some v => [OSetDefault (fst (fst m)) (snd m) v] | None => [] end) ++
  (match dget2 (f_types f) (fst (fst m)) (snd (fst m)) with
   | Some dt => [OSetType (fst (fst m)) (snd m) (args_of dt)] | None => [] end).

(** utils.py 808-835 [change_fields_with_reserved_keywords].  The order in which
    [schema()] lists the tables is that of the declaration here. *)
Definition change_fields (parses : value -> bool) (f : factory) (kw : list string) (undo : bool) : option factory :=
  match all_some (map (new_decl kw undo) (f_decl f)) with
  | None => None
  | Some d =>
      match init d with
      | None => None
      | Some g => exec parses g (flat_map (copy_ops f) (mapping kw undo (f_decl f)))
      end
  end.
