(** * AMPL: copy_from_ampl_variables and copy_to_ampl
    (ticdatfactory.py 1478-1583, pandatfactory.py 1598-1647, 1673-1703).

    An AMPL variable is the table that [getValues] gives: an indexing dimension and rows
    of an index tuple and one value.  A DataFrame of amplpy is what the calls
    [DataFrame(index=...)], [setColumn] and [addColumn] put in.  The tables are visited
    in the order of the schema (a set in the code); results go to separate attributes.
    Not modelled: [set_ampl_data] (1584-1606, 1648-1672), which hands each attribute to [AMPL.setData];
    variables whose frame has more than one value column (1516-1517); an AMPL
    variable whose dimension is not the length of the key raises here even when the
    filter keeps no row. *)
From Coq Require Import ZArith Bool List String Arith.
From Verif Require Import PyVal PyDict Data FindTypes FK Obj Factory InfIO Json Frames.
Import ListNotations.
Local Open Scope string_scope.
Local Open Scope list_scope.

(** [av.getValues()], ticdatfactory.py 1514-1515: the dimension, and index tuples with values. *)
Record avar : Type := mkVar { av_dim : nat; av_rows : list (list value * value) }.

(** ticdatfactory.py 1511-1513: the entries [(t, f) -> (av, filter_)]; a falsy [f] is "". *)
Definition aentry : Type := (string * string) * (avar * (value -> bool)).

(** ticdatfactory.py 1511: the filter used when none is given, [lambda x : x != 0]. *)
Definition nonzero (v : value) : bool := cell_neq v (VNum (of_int 0)).

(** ticdatfactory.py 1503-1507 for one entry. *)
Definition entry_ok (sch : schema) (e : aentry) : bool :=
  match dget String.eqb sch (fst (fst e)) with
  | Some ts => negb (Nat.eqb (List.length (tpk ts)) 0) && (mem_str (snd (fst e)) (tdf ts) || String.eqb (snd (fst e)) "")
  | None => false
  end.

(** ticdatfactory.py 1518-1524: the column is renamed, rows are filtered, the index is named. *)
Definition var_frame (pk : list string) (c : string) (flt : value -> bool) (rows : list (list value * value)) : frame :=
  mkFr (map CName pk) [CName c] (map (fun kv => (fst kv, [snd kv])) (filter (fun kv => flt (snd kv)) rows)).

(** ticdatfactory.py 1529-1530: the one-table factory of a falsy field. *)
Definition dummy := "ticdat_dummy".
(** The schema of that factory, ticdatfactory.py 1529-1530. *)
Definition dummy_schema (t : string) (ts : tschema) : schema := [(t, mkT (tpk ts) [dummy])].

(** What an entry writes: the keys and, for a field, the cells (ticdatfactory.py 1514-1531). *)
Definition entry_rows (sch : schema) (generics : list string) (dv : defaults) (mode : string) (ts : tschema) (e : aentry)
  : option (list (pkey * option value)) :=
  let '((t, f), (v, flt)) := e in
  match av_rows v with
  | [] => Some []
  | rows =>
      if Nat.eqb (av_dim v) (List.length (tpk ts)) then
        if String.eqb f "" then
          if decl_ok [(t, Fields (mkT (tpk ts) [dummy]))] then
            match from_frames (dummy_schema t ts) [] (zero_defaults [(t, Fields (mkT (tpk ts) [dummy]))]) "assert"
                    [(t, PFrame (var_frame (tpk ts) dummy flt rows))] with
            | Some (d, _) => match d t with OKeyed l => Some (map (fun kr => (fst kr, None)) l) | OListed _ => None end
            | None => None
            end
          else None
        else
          match from_frames sch generics dv mode [(t, PFrame (var_frame (tpk ts) f flt rows))] with
          | Some (d, _) =>
              match d t with
              | OKeyed l => map_opt (fun kr => option_map (fun c => (fst kr, Some c)) (dget String.eqb (combine (tdf ts) (snd kr)) f)) l
              | OListed _ => None
              end
          | None => None
          end
      else None
  end.

(** ticdatfactory.py 1527-1528 and 1531-1533: one write into the result. *)
Definition write (dv : defaults) (t : string) (ts : tschema) (f : string) (s : ktable) (kc : pkey * option value) : option ktable :=
  let r := match snd kc with
           | Some c => kstep dv t ts s (KRowSet (fst kc) f c)
           | None => if dmem pkey_eqb (k_rows s) (fst kc) then (s, false) else kstep dv t ts s (KSetItem (fst kc) (RDict []))
           end in
  if snd r then None else Some (fst r).

(** A loop that stops at the first exception (ticdatfactory.py 1510-1533). *)
Fixpoint run_all {S A} (h : S -> A -> option S) (s : S) (l : list A) : option S :=
  match l with
  | [] => Some s
  | a :: l' => match h s a with Some s' => run_all h s' l' | None => None end
  end.

(** ticdatfactory.py 1510-1533: one entry. *)
Definition copy_entry (sch : schema) (generics : list string) (dv : defaults) (mode : string) (st : string -> ktable) (e : aentry)
  : option (string -> ktable) :=
  let t := fst (fst e) in
  match dget String.eqb sch t with
  | None => None
  | Some ts =>
      match entry_rows sch generics dv mode ts e with
      | None => None
      | Some l => option_map (fun s t' => if String.eqb t t' then s else st t') (run_all (write dv t ts (snd (fst e))) (st t) l)
      end
  end.

(** ticdatfactory.py 1478-1536: the keyed tables of the result; the other tables are empty. *)
Definition copy_from_ampl (sch : schema) (generics : list string) (dv : defaults) (mode : string) (entries : list aentry)
  : option (string -> ktable) :=
  if forallb (entry_ok sch) entries then run_all (copy_entry sch generics dv mode) (fun _ => mkK false []) entries else None.

(** ** To AMPL *)

(** An amplpy DataFrame: the index columns and the columns set, in the order of the calls
    (ticdatfactory.py 1574-1580). *)
Record aframe : Type := mkA { a_index : list string; a_cols : list (string * list value) }.

(** [field_renamings]: a falsy name is "" (ticdatfactory.py 1562-1567). *)
Definition renamings : Type := list ((string * string) * string).

(** Equality of pairs of names, ticdatfactory.py 1573. *)
Definition pair_eqb (a b : string * string) : bool := String.eqb (fst a) (fst b) && String.eqb (snd a) (snd b).

(** ticdatfactory.py 1573, pandatfactory.py 1637 *)
Definition new_name (ren : renamings) (t f : string) : string := dget_or pair_eqb ren (t, f) f.

(** ticdatfactory.py 1560-1561, pandatfactory.py 1621-1622: [primary_key_fields] has no entry for a generic table, so
    looking it up raises. *)
Definition ampl_tables (sch : schema) (generics : list string) (excluded : list string) : option schema :=
  if forallb (fun t => mem_str t (map fst sch ++ generics)) excluded then
    match generics with
    | _ :: _ => None
    | [] => Some (filter (fun tts => negb (Nat.eqb (List.length (tpk (snd tts))) 0) && negb (mem_str (fst tts) excluded)) sch)
    end
  else None.

(** ticdatfactory.py 1562-1567 *)
Definition renaming_ok (tables : schema) (kv : (string * string) * string) : bool :=
  match dget String.eqb tables (fst (fst kv)) with
  | Some ts => mem_str (snd (fst kv)) (tpk ts ++ tdf ts) && (mem_str (snd (fst kv)) (tdf ts) || negb (String.eqb (snd kv) ""))
  | None => false
  end.

(** [list(df[f])], ticdatfactory.py 1576-1579 *)
Definition frame_column (fr : frame) (f : string) : option (list value) :=
  map_opt (fun r => cell_of (fr_cols fr) (snd r) f) (fr_rows fr).

(** ticdatfactory.py 1573-1580, pandatfactory.py 1637-1644: [keep] are the fields after the key, in the order visited. *)
Definition ampl_frame (ren : renamings) (t : string) (pk keep : list string) (fr : frame) : option aframe :=
  option_map (mkA (map (new_name ren t) pk))
    (map_opt (fun f => option_map (pair (new_name ren t f)) (frame_column fr f))
       (pk ++ filter (fun f => negb (String.eqb (new_name ren t f) "")) keep)).

(** ticdatfactory.py 1537-1583 *)
Definition copy_to_ampl (settle : list value -> list value) (sch : schema) (generics : list string) (d : obj) (ren : renamings)
  (excluded : list string) : option (list (string * aframe)) :=
  match ampl_tables sch generics excluded with
  | None => None
  | Some tables =>
      if forallb (renaming_ok tables) ren then
        map_opt (fun tts => match copy_frame settle (Some false) false (snd tts) (d (fst tts)) with
                            | Some fr => option_map (pair (fst tts)) (ampl_frame ren (fst tts) (tpk (snd tts)) (tdf (snd tts)) fr)
                            | None => None
                            end) tables
      else None
  end.

(** pandatfactory.py 1625-1629: any column may be named; only a column outside the key may be dropped. *)
Definition pan_renaming_ok (tables : schema) (x : string -> frame) (kv : (string * string) * string) : bool :=
  match dget String.eqb tables (fst (fst kv)) with
  | Some ts => has_col (x (fst (fst kv))) (snd (fst kv)) && (negb (String.eqb (snd kv) "") || negb (mem_str (snd (fst kv)) (tpk ts)))
  | None => false
  end.

(** pandatfactory.py 1641: the renamed fields of the table and its data fields; a set in the code. *)
Definition pan_fields (ren : renamings) (t : string) (ts : tschema) : list string :=
  let named := map (fun kv => snd (fst kv)) (filter (fun kv => String.eqb (fst (fst kv)) t) ren) in
  named ++ filter (fun f => negb (mem_str f named)) (tdf ts).

(** pandatfactory.py 1598-1647 on an object that passed good_pan_dat_object. *)
Definition pan_copy_to_ampl (sch : schema) (generics : list string) (x : string -> frame) (ren : renamings) (excluded : list string)
  : option (list (string * aframe)) :=
  match ampl_tables sch generics excluded with
  | None => None
  | Some tables =>
      if forallb (pan_renaming_ok tables x) ren then
        map_opt (fun tts => option_map (pair (fst tts))
                   (ampl_frame ren (fst tts) (tpk (snd tts)) (pan_fields ren (fst tts) (snd tts)) (x (fst tts)))) tables
      else None
  end.

(** ** PanDat results: pandatfactory.py 1673-1703 *)

(** The cells of a row object of the result, ticdatfactory.py 1652-1662. *)
Definition row_cells (r : rowobj) : row := match r with RoRow _ c => c | _ => [] end.

(** The TicDat object that copy_from_ampl_variables returns (pandatfactory.py 1697). *)
Definition ampl_obj (sch : schema) (st : string -> ktable) : obj := fun t =>
  match dget String.eqb sch t with
  | Some ts => match tpk ts with [] => OListed [] | _ => OKeyed (map (fun kr => (fst kr, row_cells (snd kr))) (k_rows (st t))) end
  | None => OListed []
  end.

(** pandatfactory.py 1699-1700: [reset_index(drop=True)]; a generic table is a string there and has no such method. *)
Definition drop_index (x : pattr) : option pattr :=
  match x with PFrame fr => Some (PFrame (mkFr [] (fr_cols fr) (map (fun r => ([], snd r)) (fr_rows fr)))) | _ => None end.

(** pandatfactory.py 1673-1703 *)
Definition pan_copy_from_ampl (settle : list value -> list value) (sch : schema) (generics : list string) (dv : defaults) (mode : string)
  (entries : list aentry) : option (string -> frame) :=
  match copy_from_ampl sch generics dv mode entries with
  | None => None
  | Some st =>
      match copy_to_pandas settle sch generics [] (Some false) false (ampl_obj sch st) with
      | None => None
      | Some l =>
          match map_opt (fun tx => option_map (pair (fst tx)) (drop_index (snd tx))) l with
          | Some l' => pan_dat settle sch dv l'
          | None => None
          end
      end
  end.
