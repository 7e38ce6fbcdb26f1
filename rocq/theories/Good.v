(** * What counts as a TicDat object: ticdatfactory.py 1118-1153, 1165-1287.

    An attribute of the object checked is absent, a DataFrame, a table that
    Obj.v describes, or anything else ([AOther]: no container, or a string).  Not
    modelled: generator and generic tables, DataFrames beyond their refusal, Series. *)
From Coq Require Import ZArith Bool List String Arith.
From Verif Require Import PyVal PyDict Data FindTypes FK Obj InfIO.
Import ListNotations.
Local Open Scope string_scope.
Local Open Scope list_scope.

(** [getattr(data_obj, t)] of ticdatfactory.py 1118-1153. *)
Inductive attr : Type :=
| AMissing : attr
| AFrame   : attr
| AOther   : attr
| ATable   : tablein -> attr.

(** The result and the messages given to [bad_message_handler] (ticdatfactory.py 1118-1287). *)
Definition verdict : Type := (bool * list string)%type.
(** One message and False, e.g. ticdatfactory.py 1204-1206. *)
Definition bad (m : string) : verdict := (false, [m]).
(** [return True], ticdatfactory.py 1287. *)
Definition good : verdict := (true, []).

(** ticdatfactory.py 1278-1286: [set(x.keys()) == set(data_fields)] *)
Definition exact_fields (fields : list string) (x : rowin) : bool :=
  match x with
  | RDict l => forallb (fun fv => mem_str (fst fv) fields) l && forallb (fun f => mem_str f (map fst l)) fields
  | _ => false
  end.

(** ticdatfactory.py 1260-1287 *)
Definition check_rows (strict : bool) (fields : list string) (rows : list rowin) : verdict :=
  if negb (forallb (fun x => match x with RDict l => forallb (fun fv => mem_str (fst fv) fields) l | _ => true end) rows)
  then bad "Inconsistent data field name keys."
  else if negb (forallb (fun x => match x with RSeq l => Nat.eqb (List.length l) (List.length fields) | _ => true end) rows)
  then bad "Inconsistent data row lengths."
  else if existsb (fun x => match x with RAtom _ => true | _ => false end) rows && negb (Nat.eqb (List.length fields) 1)
  then bad "Non-container data rows supported only for single-data-field tables"
  else if strict then
    if existsb (fun x => match x with RDict _ => false | _ => true end) rows then bad "Non dict data rows"
    else if negb (forallb (exact_fields fields) rows) then bad "Mismatched data field name keys."
    else good
  else good.

(** ticdatfactory.py 29-36 on an element of a container. *)
Definition elem_len (x : rowin) : nat :=
  match x with RDict l => List.length l | RSeq l => List.length l | RAtom _ => 1 end.

(** ticdatfactory.py 1165-1249.  [name] is only shown. *)
Definition good_table (strict : bool) (name : string) (ts : tschema) (a : attr) : outcome verdict :=
  match a with
  | AMissing | AFrame => Ret (bad "is a pandas object, not a TicDat table object")
  | AOther =>
      match tpk ts with
      | [] => Raise
      | _ => Ret (if strict then bad (append name " is not a dict") else bad "Unexpected ticDat table type")
      end
  | ATable inp =>
      match tpk ts with
      | [] => Ret (check_rows strict (tdf ts) (match inp with TRows rows => rows | TDict l => map (fun kr => key_as_row (fst kr)) l end))
      | _ =>
          match inp with
          | TDict l =>
              Ret (match l with
                   | [] => good
                   | _ => if forallb (fun kr => Nat.eqb (keylen (fst kr)) (List.length (tpk ts))) l
                          then check_rows strict (tdf ts) (map snd l)
                          else bad "Inconsistent key lengths"
                   end)
          | TRows rows =>
              Ret (if strict then bad (append name " is not a dict")
                   else match tdf ts with
                        | _ :: _ => bad "contains data fields, and thus must be represented by a dict"
                        | [] => if forallb (fun x => Nat.eqb (elem_len x) (List.length (tpk ts))) rows then good
                                else bad "Inconsistent key lengths"
                        end)
          end
      end
  end.

(** ticdatfactory.py 1118-1153: the loop, with the verdict so far. *)
Fixpoint good_from (strict : bool) (sch : schema) (x : string -> attr) (v : verdict) : outcome verdict :=
  match sch with
  | [] => Ret v
  | (t, ts) :: sch' =>
      match x t with
      | AMissing => Ret (false, snd v ++ [append t " not an attribute."])
      | AFrame => Ret (false, snd v ++ [append t " is a DataFrame but not a generic table."])
      | a =>
          if fst v then
            match good_table strict t ts a with
            | Raise => Raise
            | Ret w => good_from strict sch' x (fst w, snd v ++ map (fun m => append t (append " : " m)) (snd w))
            end
          else good_from strict sch' x v
      end
  end.
(** ticdatfactory.py 1118-1153 [good_tic_dat_object]. *)
Definition good_object (strict : bool) (sch : schema) (x : string -> attr) : outcome verdict := good_from strict sch x good.
