(** * obfusimplify: renaming the keys of entity tables.

    ticdatfactory.py 2099-2215, utils.py 956-968 (baseConverter).
    PanDatFactory.obfusimplify (pandatfactory.py 1563-1595) copies to a TicDat
    object, calls this function and copies back; only the TicDat function is
    modelled. *)
From Coq Require Import ZArith Bool List String Ascii Arith DecimalString.
From Verif Require Import PyVal PyDict PyStr Data FindTypes FK InfIO Ampl.
Import ListNotations.

(** ticdatfactory.py 2157: the upper case letters except I. *)
Definition chars : list ascii := txt "ABCDEFGHJKLMNOPQRSTUVWXYZ".
(** [string.ascii_uppercase] (ticdatfactory.py 2149, 2157). *)
Definition uppercase : list ascii := txt "ABCDEFGHIJKLMNOPQRSTUVWXYZ".

(** [_ in chars], ticdatfactory.py 2158. *)
Definition char_in (l : list ascii) (c : ascii) : bool := existsb (Ascii.eqb c) l.
(** Equality of strings, ticdatfactory.py 2168-2170. *)
Definition text_eqb (a b : text) : bool := list_eqb Ascii.eqb a b.

(** ticdatfactory.py 2158: [t.upper()] restricted to [chars]. *)
Definition from_table (t : string) : text := filter (char_in chars) (map upper_char (txt t)).

(** utils.py 956-968.  Below the base the number itself; otherwise the digits
    are computed with true division (965-967), so the first one is a float and
    the caller's [chars[_]] (ticdatfactory.py 2164) raises TypeError: [Raise]. *)
Definition base_converter (number base : nat) : outcome (list nat) :=
  if Nat.ltb number base then Ret [number] else Raise.

(** ticdatfactory.py 2159-2166: what the generator yields for [rtnnum = n]. *)
Definition candidate (ft : text) (n : nat) : outcome text :=
  if Nat.leb n (List.length ft) then Ret (firstn n ft)
  else match base_converter (n - List.length ft - 1) (List.length chars) with
       | Ret ds => Ret (ft ++ map (fun d => nth d chars "A"%char) ds)
       | Raise => Raise
       end.

(** ticdatfactory.py 2167-2170: the first candidate not in use. *)
Fixpoint pick (used : list text) (ft : text) (ns : list nat) : outcome text :=
  match ns with
  | [] => Raise
  | n :: ns' =>
      match candidate ft n with
      | Raise => Raise
      | Ret s => if existsb (fun u => text_eqb u s) used then pick used ft ns' else Ret s
      end
  end.

(** The source counts on without end; the last number listed here always
    raises, so the search never gets past it ([candidate_last]) (ticdatfactory.py 2167-2171). *)
Definition name_for (used : list text) (t : string) : outcome text :=
  let ft := from_table t in pick used ft (seq 1 (List.length ft + List.length chars + 1)).

(** ticdatfactory.py 2155-2171: [table_prepends], completed table by table. *)
Fixpoint assign (ts : list string) (pre : list (string * text)) : outcome (list (string * text)) :=
  match ts with
  | [] => Ret pre
  | t :: ts' =>
      match name_for (map snd pre) t with
      | Raise => Raise
      | Ret n => assign ts' (dset String.eqb pre t n)
      end
  end.

(** ticdatfactory.py 2134-2139: tables with a one-field primary key that is not one-to-one with
    a foreign table. *)
Definition entity_tables (sch : schema) (fks : list fk) : list string :=
  map fst (filter (fun tts =>
    Nat.eqb (List.length (tpk (snd tts))) 1 &&
    negb (existsb (fun f => String.eqb (fk_native f) (fst tts) && native_one sch f && foreign_one sch f) fks)) sch).

(** ticdatfactory.py 2149-2150: all upper case and not ending in I (the empty string passes). *)
Definition good_prepend (v : text) : bool :=
  forallb (char_in uppercase) v && negb (match rev v with c :: _ => Ascii.eqb c "I"%char | [] => false end).

Section Obfus.
  (** Iteration order of a set of table names. *)
  Variable order : list string -> list string.
  (** [sorted] of the keys of a table; raises for keys that cannot be compared. *)
  Variable sorted : list value -> outcome (list value).

  (** ticdatfactory.py 2130-2172.  [user] is the [table_prepends] argument (a dict), [fks] the
      foreign keys of [better_self], implied ones included. *)
  Definition prepends (sch : schema) (fks : list fk) (user : list (string * text)) (skip : list string)
    : outcome (list (string * text)) :=
    let ents := entity_tables sch fks in
    let ents' := filter (fun t => negb (mem_str t skip)) ents in
    if existsb (fun kv => mem_str (fst kv) skip) user then Raise
    else if negb (forallb (fun t => mem_str t ents) skip) then Raise
    else if negb (forallb (fun kv => mem_str (fst kv) ents' && good_prepend (snd kv)) user) then Raise
    else if negb (Nat.eqb (List.length (set_of text_eqb (map snd user))) (List.length user)) then Raise
    else assign (order (filter (fun t => negb (mem_str t (map fst user))) ents')) user.

  (** Equality of the keys (table, value) of [renamings], ticdatfactory.py 2173-2185. *)
  Definition tv_eqb (a b : string * value) : bool := String.eqb (fst a) (fst b) && pyeq (snd a) (snd b).

  (** ticdatfactory.py 2176: ["%s%s" % (prefix, n)] *)
  Definition new_name (p : text) (n : nat) : text := p ++ txt (NilEmpty.string_of_uint (Nat.to_uint n)).

  (** The keys of an entity table (ticdatfactory.py 2173-2180). *)
  Definition entity_keys (tb : table) : list value :=
    match tb with Keyed l => map (fun kr => hd VNone (fst kr)) l | Listed _ => [] end.

  (** [reverse_renamings] turned round, ticdatfactory.py 2173-2215. *)
  Definition renaming := list ((string * value) * text).

  (** ticdatfactory.py 2173-2176 [reverse_renamings] *)
  Fixpoint reverse_renamings (d : dat) (pre : list (string * text)) (acc : renaming) : outcome renaming :=
    match pre with
    | [] => Ret acc
    | (t, p) :: pre' =>
        match sorted (entity_keys (d t)) with
        | Raise => Raise
        | Ret ks =>
            reverse_renamings d pre'
              (fold_left (fun a ik => dset tv_eqb a (t, snd ik) (new_name p (fst ik + 1))) (enum_from 0 ks) acc)
        end
    end.

  (** ticdatfactory.py 2177-2183: renamed columns and the entity table each refers to. *)
  Definition fk_columns (fks : list fk) (ents : list string) : list ((string * string) * string) :=
    fold_left (fun acc f =>
      if mem_str (fk_foreign f) ents
      then dupdate tf_eqb acc (map (fun nf => ((fk_native f, fst nf), fk_foreign f)) (native_to_foreign (fk_map f)))
      else acc) fks [].

  (** A generated name as a cell, ticdatfactory.py 2180-2185. *)
  Definition as_value (n : text) : value := VStr (string_of_list_ascii n).

  (** ticdatfactory.py 2188-2190 [fix_all_row] for one cell. *)
  Definition fix_cell (rev : renaming) (cols : list ((string * string) * string)) (t f : string) (v : value)
    : outcome value :=
    match dget tf_eqb cols (t, f) with
    | None => Ret v
    | Some e => match dget tv_eqb rev (e, v) with Some n => Ret (as_value n) | None => Raise end
    end.

  (** A loop in which a step may raise, ticdatfactory.py 2186-2210. *)
  Fixpoint all_ret {A} (l : list (outcome A)) : outcome (list A) :=
    match l with
    | [] => Ret []
    | Raise :: _ => Raise
    | Ret x :: l' => match all_ret l' with Ret r => Ret (x :: r) | Raise => Raise end
    end.

  (** [fix_row] cell by cell, ticdatfactory.py 2186-2200. *)
  Definition fix_cells (rev : renaming) (cols : list ((string * string) * string)) (t : string)
    (fs : list string) (vs : list value) : outcome (list value) :=
    all_ret (map (fun fv => fix_cell rev cols t (fst fv) (snd fv)) (combine fs vs)).

  (** ticdatfactory.py 2193-2205: the new primary key. *)
  Definition fix_key (rev : renaming) (cols : list ((string * string) * string)) (t : string)
    (ts : tschema) (k : key) : outcome key :=
    match tpk ts with
    | [pkf] =>
        match dget tf_eqb cols (t, pkf) with
        | Some e => match dget tv_eqb rev (e, hd VNone k) with Some n => Ret [as_value n] | None => Raise end
        | None => Ret [match dget tv_eqb rev (t, hd VNone k) with Some n => as_value n | None => hd VNone k end]
        end
    | pks => fix_cells rev cols t pks k
    end.

  (** ticdatfactory.py 2191-2205 *)
  Fixpoint fix_keyed (rev : renaming) (cols : list ((string * string) * string)) (t : string) (ts : tschema)
    (l acc : list (key * row)) : outcome (list (key * row)) :=
    match l with
    | [] => Ret acc
    | (k, r) :: l' =>
        match fix_key rev cols t ts k, fix_cells rev cols t (tdf ts) r with
        | Ret k', Ret r' => fix_keyed rev cols t ts l' (dset key_pyeq acc k' r')
        | _, _ => Raise
        end
    end.

  (** ticdatfactory.py 2187-2208; rebuilding the TicDat object from complete rows changes
      nothing further. *)
  Definition fix_table (rev : renaming) (cols : list ((string * string) * string)) (t : string) (ts : tschema)
    (tb : table) : outcome table :=
    match tb with
    | Keyed l => match fix_keyed rev cols t ts l [] with Ret l' => Ret (Keyed l') | Raise => Raise end
    | Listed l => match all_ret (map (fix_cells rev cols t (tdf ts)) l) with
                  | Ret l' => Ret (Listed l') | Raise => Raise end
    end.

  (** ticdatfactory.py 2200-2210 over all tables. *)
  Fixpoint fix_tables (rev : renaming) (cols : list ((string * string) * string)) (sch : schema) (d : dat)
    : outcome (list (string * table)) :=
    match sch with
    | [] => Ret []
    | (t, ts) :: sch' =>
        match fix_table rev cols t ts (d t), fix_tables rev cols sch' d with
        | Ret tb, Ret r => Ret ((t, tb) :: r)
        | _, _ => Raise
        end
    end.

  (** The tables as [find_foreign_key_failures] sees them, ticdatfactory.py 2211-2213. *)
  Definition dat_of (tbs : list (string * table)) : dat := fun t => dget_or String.eqb tbs t (Keyed []).

  (** [bool(find_foreign_key_failures(..))], ticdatfactory.py 2130-2133, 2211-2213. *)
  Definition has_failures (sch : schema) (fks : list fk) (d : dat) : bool :=
    match find_foreign_key_failures sch fks d PInf with Some [] => false | _ => true end.

  (** ticdatfactory.py 2124-2215 for a well-formed data object and no generator tables.
      [fks0] are the factory's foreign keys, [fks] those of [better_self]. *)
  Definition obfusimplify (sch : schema) (fks0 fks : list fk) (user : list (string * text)) (skip : list string)
    (d : dat) : outcome (dat * list (text * (string * value))) :=
    if has_failures sch fks0 d then Raise
    else match prepends sch fks user skip with
    | Raise => Raise
    | Ret pre =>
        match reverse_renamings d pre [] with
        | Raise => Raise
        | Ret rev =>
            match fix_tables rev (fk_columns fks (map fst pre)) sch d with
            | Raise => Raise
            | Ret tbs =>
                let copy := dat_of tbs in
                let ren := dict_of text_eqb (map (fun kv => (snd kv, fst kv)) rev) in
                if has_failures sch fks copy then Raise
                else if negb (Nat.eqb (List.length ren) (List.length rev)) then Raise
                else Ret (copy, ren)
            end
        end
    end.
End Obfus.
