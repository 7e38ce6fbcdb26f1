(** * TicDat objects: construction, rows, tables, freezing, comparison.

    ticdatfactory.py 610-634 (as_dict), 696-864 (TicDat), 1163-1287 (input
    checks), 1305-1351 (_same_data), 1462-1477 (copy_tic_dat); utils.py
    970-1012 (freezing), 1050-1109 (rows).  DataFrames and generic tables are in Frames.v,
    generator tables in Lazy.v.  Not modelled: Series, attributes starting with an
    underscore, cells that are containers. *)
From Coq Require Import ZArith Bool List String Arith.
From Verif Require Import PyVal PyDict Data FindTypes FK.
Import ListNotations.
Local Open Scope string_scope.
Local Open Scope list_scope.

(** ** Inputs *)

(** A dict key: a scalar or a tuple (ticdatfactory.py 703-731). *)
Inductive pkey : Type :=
| KAtom : value -> pkey
| KTup  : list value -> pkey.

(** Python [==] of dict keys, ticdatfactory.py 703-731. *)
Definition pkey_eqb (a b : pkey) : bool :=
  match a, b with
  | KAtom x, KAtom y => pyeq x y
  | KTup x, KTup y => list_eqb pyeq x y
  | _, _ => false
  end.

(** A row: dictish, containerish or neither (utils.py 942-951). *)
Inductive rowin : Type :=
| RDict : list (string * value) -> rowin
| RSeq  : list value -> rowin
| RAtom : value -> rowin.

(** A table argument of the constructor: a dict or a list of rows (ticdatfactory.py 776-859). *)
Inductive tablein : Type :=
| TDict : list (pkey * rowin) -> tablein
| TRows : list rowin -> tablein.

(** A table attribute of a TicDat object (ticdatfactory.py 776-859). *)
Inductive otable : Type :=
| OKeyed  : list (pkey * row) -> otable
| OListed : list row -> otable.

(** ** Rows: utils.py 1050-1109 *)

(** ticdatfactory.py 1068-1070 and 1065: the declared default, else 0. *)
Definition cell_default (dv : defaults) (t f : string) : value :=
  match dget2 dv t f with Some v => v | None => VNum (of_int 0) end.

(** ticdatfactory.py 1053-1058 ([data_field_names] empty), 1061-1082 otherwise. *)
Definition row_factory (dv : defaults) (t : string) (ts : tschema) (x : rowin) : option row :=
  match tdf ts with
  | [] => match x with RDict [] | RSeq [] => Some [] | _ => None end
  | _ :: _ =>
      match x with
      | RDict l =>
          if forallb (fun fv => mem_str (fst fv) (tdf ts)) l
          then Some (fold_left (fun r fv => set_nth_cell (tdf ts) r (fst fv) (snd fv)) l
                       (map (cell_default dv t) (tdf ts)))
          else None
      | RSeq l => if Nat.eqb (List.length l) (List.length (tdf ts)) then Some l else None
      | RAtom v => if Nat.eqb (List.length (tdf ts)) 1 then Some [v] else None
      end
  end.

(** ** Input checks *)

(** ticdatfactory.py 1261-1287 [_good_data_rows] with row_checking="generous". *)
Definition good_rows (fields : list string) (rows : list rowin) : bool :=
  forallb (fun x => match x with
                    | RDict l => forallb (fun fv => mem_str (fst fv) fields) l
                    | RSeq l => Nat.eqb (List.length l) (List.length fields)
                    | RAtom _ => Nat.eqb (List.length fields) 1
                    end) rows.

(** ticdatfactory.py 29-36 [_keylen]: strings are not containerish. *)
Definition keylen (k : pkey) : nat :=
  match k with KAtom _ => 1 | KTup l => List.length l end.

(** ticdatfactory.py 832-836: the second check of the keys. *)
Definition key_len_ok (n : nat) (k : pkey) : bool :=
  (match k with
   | KTup l => Nat.eqb (List.length l) n
   | KAtom (VStr s) => Nat.eqb (String.length s) n
   | KAtom _ => false
   end && Nat.ltb 1 n) || Nat.eqb n 1.

(** ** Construction: 776-859 *)

Fixpoint map_opt {A B} (f : A -> option B) (l : list A) : option (list B) :=
  match l with
  | [] => Some []
  | x :: l' => match f x, map_opt f l' with
               | Some y, Some r => Some (y :: r)
               | _, _ => None
               end
  end.

(** ticdatfactory.py 818-822 [handle_row_dict]: missing fields become 0. *)
Definition handle_row_dict (ts : tschema) (x : rowin) : rowin :=
  match x with
  | RDict l => RSeq (map (fun f => dget_or String.eqb l f (VNum (of_int 0))) (tpk ts ++ tdf ts))
  | _ => x
  end.

(** ticdatfactory.py 825-827: key and data of one row of a list. *)
Definition keyed_row (dv : defaults) (t : string) (ts : tschema) (x : rowin) : option (pkey * row) :=
  match handle_row_dict ts x with
  | RAtom v => option_map (pair (KAtom v)) (row_factory dv t ts (RSeq []))
  | RSeq l =>
      let n := List.length (tpk ts) in
      option_map (pair (if Nat.eqb n 1 then KAtom (hd VNone l) else KTup (firstn n l)))
        (row_factory dv t ts (RSeq (skipn n l)))
  | RDict _ => None
  end.

(** ticdatfactory.py 1154-1161, 1218-1233, 1250-1259 (the checks) and 816-843 (the table).  A
    dict given for a table without primary key is a container of its keys. *)
Definition key_as_row (k : pkey) : rowin :=
  match k with KAtom v => RAtom v | KTup l => RSeq l end.

(** ticdatfactory.py 785-846: one keyword argument of the constructor. *)
Definition init_one (dv : defaults) (t : string) (ts : tschema) (inp : tablein) : option otable :=
  match tpk ts with
  | [] =>
      let rows := match inp with TRows rows => rows | TDict l => map (fun kr => key_as_row (fst kr)) l end in
      if good_rows (tdf ts) rows then option_map OListed (map_opt (row_factory dv t ts) rows) else None
  | _ :: _ =>
      match inp with
      | TRows rows =>
          if good_rows (tpk ts ++ tdf ts) rows
          then option_map (fun l => OKeyed (dict_of pkey_eqb l)) (map_opt (keyed_row dv t ts) rows)
          else None
      | TDict l =>
          if forallb (fun kr => Nat.eqb (keylen (fst kr)) (List.length (tpk ts))) l &&
             good_rows (tdf ts) (map snd l) &&
             forallb (fun kr => key_len_ok (List.length (tpk ts)) (fst kr)) l
          then option_map OKeyed
                 (map_opt (fun kr => option_map (pair (fst kr)) (row_factory dv t ts (snd kr))) l)
          else None
      end
  end.

(** [len(v)] of the argument, ticdatfactory.py 847-859. *)
Definition in_length (inp : tablein) : nat :=
  match inp with TDict l => List.length l | TRows l => List.length l end.
(** [len(getattr(self, t))], ticdatfactory.py 847-859. *)
Definition out_length (tb : otable) : nat :=
  match tb with OKeyed l => List.length l | OListed l => List.length l end.

(** A table not given to the constructor is empty, ticdatfactory.py 840-846. *)
Definition no_rows (ts : tschema) : otable :=
  match tpk ts with [] => OListed [] | _ => OKeyed [] end.

(** A TicDat object, ticdatfactory.py 766-870. *)
Definition obj := string -> otable.

(** ticdatfactory.py 776-859; [mode] is [duplicates_ticdat_init]; None is an exception.
    Foreign key links are built elsewhere. *)
Definition construct (sch : schema) (dv : defaults) (mode : string) (inputs : list (string * tablein))
  : option obj :=
  match map_opt (fun ti => match dget String.eqb sch (fst ti) with
                           | Some ts => option_map (pair (fst ti)) (init_one dv (fst ti) ts (snd ti))
                           | None => None
                           end) inputs with
  | None => None
  | Some built =>
      let d := fun t => match dget String.eqb built t with
                        | Some tb => tb
                        | None => match dget String.eqb sch t with Some ts => no_rows ts | None => OListed [] end
                        end in
      if String.eqb mode "assert" &&
         existsb (fun ti => Nat.ltb (out_length (d (fst ti))) (in_length (snd ti))) inputs
      then None else Some d
  end.

(** ticdatfactory.py 610-634 [as_dict]; also what [copy_tic_dat] (1476) hands to the
    constructor: tables and rows are read through [items()]. *)
Definition as_dict (sch : schema) (d : obj) : list (string * tablein) :=
  map (fun tts => (fst tts,
         match d (fst tts) with
         | OKeyed l => TDict (map (fun kr => (fst kr, RDict (combine (tdf (snd tts)) (snd kr)))) l)
         | OListed l => TRows (map (fun r => RDict (combine (tdf (snd tts)) r)) l)
         end)) sch.

(** ** Comparison: 1305-1351, epsilon = 0, NaNs not the same *)

(** Python [a != b] on cells: a NaN differs from itself (ticdatfactory.py 1305-1351). *)
Definition cell_neq (a b : value) : bool :=
  match a, b with VNaN, _ | _, VNaN => true | _, _ => negb (pyeq a b) end.

(** ticdatfactory.py 1317-1325: both rows have the table's data fields. *)
Definition same_row (a b : row) : bool := forallb (fun ab => negb (cell_neq (fst ab) (snd ab))) (combine a b).

(** [set(t1) != set(t2)] (ticdatfactory.py 1326-1330). *)
Definition same_keys (a b : list pkey) : bool :=
  forallb (fun k => existsb (fun k' => pkey_eqb k' k) b) a && forallb (fun k => existsb (fun k' => pkey_eqb k' k) a) b.

(** ticdatfactory.py 1318-1351 for one table. *)
Definition same_table (a b : otable) : bool :=
  match a, b with
  | OKeyed l, OKeyed m =>
      same_keys (map fst l) (map fst m) &&
      forallb (fun kr => match dget pkey_eqb m (fst kr) with Some r => same_row (snd kr) r | None => false end) l
  | OListed l, OListed m =>
      Nat.eqb (List.length l) (List.length m) && forallb (fun r => existsb (fun r' => same_row r r') m) l
  | _, _ => false
  end.

(** ticdatfactory.py 1305-1351 [_same_data]. *)
Definition same_data (sch : schema) (d e : obj) : bool :=
  forallb (fun tts => same_table (d (fst tts)) (e (fst tts))) sch.

(** ** Live tables: rows are objects that can be frozen *)

(** A row object: [TicDatDataRow]; the [FreezeableDict] used when the table has
    no data fields; a plain dict that entered through an inherited dict
    method (utils.py 970-1012, 1050-1109). *)
Inductive rowobj : Type :=
| RoRow  : bool -> row -> rowobj
| RoFree : bool -> list (string * value) -> rowobj
| RoRaw  : list (string * value) -> rowobj.

(** [TicDatDict] (703-715): [_dataFrozen] and the entries. *)
Record ktable : Type := mkK { k_frozen : bool; k_rows : list (pkey * rowobj) }.

(** Calls on a keyed table; the last three go to a row of it (ticdatfactory.py 696-765). *)
Inductive kop : Type :=
| KGetItem : pkey -> kop                                  (** [t[k]] *)
| KGet : pkey -> kop                                      (** [t.get(k)] *)
| KIn : pkey -> kop                                       (** [k in t] *)
| KSetItem : pkey -> rowin -> kop                         (** [t[k] = x] *)
| KDelItem : pkey -> kop                                  (** [del t[k]] *)
| KPop : pkey -> kop                                      (** [t.pop(k)] *)
| KUpdate : list (pkey * list (string * value)) -> kop    (** [t.update(..)] *)
| KSetDefault : pkey -> list (string * value) -> kop      (** [t.setdefault(k, x)] *)
| KPopItem : kop                                          (** [t.popitem()] *)
| KClear : kop                                            (** [t.clear()] *)
| KIor : list (pkey * list (string * value)) -> kop       (** [t |= ..] *)
| KRowSet : pkey -> string -> value -> kop                (** [t[k][f] = v] *)
| KRowUpdate : pkey -> list (string * value) -> kop       (** [t[k].update(..)] *)
| KRowSetDefault : pkey -> string -> value -> kop.        (** [t[k].setdefault(f, v)] *)

Section Live.
  Variable dv : defaults.
  Variable t : string.
  Variable ts : tschema.

  (** [rowfactory(x)] (utils.py 1050-1109). *)
  Definition make_row (x : rowin) : option rowobj :=
    match tdf ts with
    | [] => option_map (fun _ => RoFree false []) (row_factory dv t ts x)
    | _ :: _ => option_map (RoRow false) (row_factory dv t ts x)
    end.

  (** ticdatfactory.py 708-710 *)
  Definition key_ok (k : pkey) : bool :=
    match k with
    | KAtom _ => Nat.eqb (List.length (tpk ts)) 1
    | KTup l => Nat.ltb 1 (List.length (tpk ts)) && Nat.eqb (List.length l) (List.length (tpk ts))
    end.

  (** Replaces the content of the table, ticdatfactory.py 696-765. *)
  Definition set_rows (s : ktable) (l : list (pkey * rowobj)) : ktable := mkK (k_frozen s) l.

  (** ticdatfactory.py 707-711 over utils.py 992-995. *)
  Definition k_setitem (s : ktable) (k : pkey) (x : rowin) : ktable * bool :=
    if key_ok k then
      match make_row x with
      | Some r => if k_frozen s then (s, true) else (set_rows s (dset pkey_eqb (k_rows s) k r), false)
      | None => (s, true)
      end
    else (s, true).

  (** ticdatfactory.py 712-715: the new state and the row (None: an exception). *)
  Definition k_getitem (s : ktable) (k : pkey) : ktable * option rowobj :=
    let s' := if negb (dmem pkey_eqb (k_rows s) k) && negb (k_frozen s)
              then fst (k_setitem s k (RDict [])) else s in
    (s', dget pkey_eqb (k_rows s') k).

  (** utils.py 1088-1093 (rows) and 992-995 (FreezeableDict). *)
  Definition row_set (r : rowobj) (f : string) (v : value) : option rowobj :=
    match r with
    | RoRow fz c => if mem_str f (tdf ts) && negb fz then Some (RoRow fz (set_nth_cell (tdf ts) c f v)) else None
    | RoFree fz l => if fz then None else Some (RoFree fz (dset String.eqb l f v))
    | RoRaw l => Some (RoRaw (dset String.eqb l f v))
    end.

  (** [TicDatDataRow] has no [update]; FreezeableDict guards it (1000-1003). *)
  Definition row_update (r : rowobj) (u : list (string * value)) : option rowobj :=
    match r with
    | RoRow _ _ => None
    | RoFree fz l => if fz then None else Some (RoFree fz (dupdate String.eqb l u))
    | RoRaw l => Some (RoRaw (dupdate String.eqb l u))
    end.

  (** [dict.setdefault] is inherited by FreezeableDict and not guarded (utils.py 970-1012). *)
  Definition row_setdefault (r : rowobj) (f : string) (v : value) : option rowobj :=
    let add l := if dmem String.eqb l f then l else l ++ [(f, v)] in
    match r with
    | RoRow _ _ => None
    | RoFree fz l => Some (RoFree fz (add l))
    | RoRaw l => Some (RoRaw (add l))
    end.

  (** A call on the row [t[k]] (ticdatfactory.py 696-765, utils.py 1050-1109). *)
  Definition on_row (s : ktable) (k : pkey) (h : rowobj -> option rowobj) : ktable * bool :=
    let (s', o) := k_getitem s k in
    match o with
    | None => (s', true)
    | Some r => match h r with
                | Some r' => (set_rows s' (dset pkey_eqb (k_rows s') k r'), false)
                | None => (s', true)
                end
    end.

  (** The arguments of [dict.update] and [|=], not guarded by ticdatfactory.py 696-765. *)
  Definition raw_entries (l : list (pkey * list (string * value))) : list (pkey * rowobj) :=
    map (fun kl => (fst kl, RoRaw (snd kl))) l.

  (** One call; the flag tells whether it raised (ticdatfactory.py 696-765, utils.py 970-1012). *)
  Definition kstep (s : ktable) (o : kop) : ktable * bool :=
    match o with
    | KGetItem k => let (s', r) := k_getitem s k in (s', match r with Some _ => false | None => true end)
    | KGet _ | KIn _ => (s, false)
    | KSetItem k x => k_setitem s k x
    | KDelItem k | KPop k =>
        if k_frozen s then (s, true)
        else if dmem pkey_eqb (k_rows s) k then (set_rows s (ddel pkey_eqb (k_rows s) k), false) else (s, true)
    | KUpdate l => if k_frozen s then (s, true)
                   else (set_rows s (dupdate pkey_eqb (k_rows s) (raw_entries l)), false)
    | KSetDefault k x =>
        (if dmem pkey_eqb (k_rows s) k then s else set_rows s (k_rows s ++ [(k, RoRaw x)]), false)
    | KPopItem => match k_rows s with [] => (s, true) | l => (set_rows s (removelast l), false) end
    | KClear => (set_rows s [], false)
    | KIor l => (set_rows s (dupdate pkey_eqb (k_rows s) (raw_entries l)), false)
    | KRowSet k f v => on_row s k (fun r => row_set r f v)
    | KRowUpdate k u => on_row s k (fun r => row_update r u)
    | KRowSetDefault k f v => on_row s k (fun r => row_setdefault r f v)
    end.

  (** A sequence of such calls, ticdatfactory.py 696-765. *)
  Definition krun (s : ktable) (ops : list kop) : ktable := fold_left (fun s o => fst (kstep s o)) ops s.

  (** The live form of a constructed table (ticdatfactory.py 776-859). *)
  Definition live (l : list (pkey * row)) : ktable :=
    mkK false (map (fun kr => (fst kr, match tdf ts with [] => RoFree false [] | _ => RoRow false (snd kr) end)) l).
End Live.

(** ** Tables without primary key: [TicDatDataList] (719-732) *)

(** [l_frozen]: the attribute has become a tuple (utils.py 970-1012). *)
Record ltable : Type := mkL { l_frozen : bool; l_rows : list rowobj }.

(** The primitives; append, extend, pop, remove, reverse, clear and += of
    MutableSequence are compositions of them (ticdatfactory.py 732-765). *)
Inductive lop : Type :=
| LInsert : nat -> rowin -> lop
| LSetItem : nat -> rowin -> lop
| LDelItem : nat -> lop
| LRowSet : nat -> string -> value -> lop
| LRowUpdate : nat -> list (string * value) -> lop
| LRowSetDefault : nat -> string -> value -> lop.

(** [l[i] = x], ticdatfactory.py 732-765. *)
Fixpoint set_at {A} (i : nat) (x : A) (l : list A) : list A :=
  match l, i with
  | [], _ => []
  | _ :: l', 0 => x :: l'
  | y :: l', S i' => y :: set_at i' x l'
  end.

(** [del l[i]], ticdatfactory.py 732-765. *)
Fixpoint del_at {A} (i : nat) (l : list A) : list A :=
  match l, i with
  | [], _ => []
  | _ :: l', 0 => l'
  | y :: l', S i' => y :: del_at i' l'
  end.

Section LiveList.
  Variable dv : defaults.
  Variable t : string.
  Variable ts : tschema.

  (** A call on the row [t[i]], utils.py 1050-1109. *)
  Definition l_on_row (s : ltable) (i : nat) (h : rowobj -> option rowobj) : ltable * bool :=
    match nth_error (l_rows s) i with
    | None => (s, true)
    | Some r => match h r with
                | Some r' => (mkL (l_frozen s) (set_at i r' (l_rows s)), false)
                | None => (s, true)
                end
    end.

  (** One call on a table without primary key, ticdatfactory.py 732-765. *)
  Definition lstep (s : ltable) (o : lop) : ltable * bool :=
    match o with
    | LInsert i x =>
        match make_row dv t ts x with
        | Some r => if l_frozen s then (s, true)
                    else (mkL false (firstn i (l_rows s) ++ r :: skipn i (l_rows s)), false)
        | None => (s, true)
        end
    | LSetItem i x =>
        match make_row dv t ts x with
        | Some r => if l_frozen s || negb (Nat.ltb i (List.length (l_rows s))) then (s, true)
                    else (mkL false (set_at i r (l_rows s)), false)
        | None => (s, true)
        end
    | LDelItem i =>
        if l_frozen s || negb (Nat.ltb i (List.length (l_rows s))) then (s, true)
        else (mkL false (del_at i (l_rows s)), false)
    | LRowSet i f v => l_on_row s i (fun r => row_set ts r f v)
    | LRowUpdate i u => l_on_row s i (fun r => row_update r u)
    | LRowSetDefault i f v => l_on_row s i (fun r => row_setdefault r f v)
    end.

  (** A sequence of such calls, ticdatfactory.py 732-765. *)
  Definition lrun (s : ltable) (ops : list lop) : ltable := fold_left (fun s o => fst (lstep s o)) ops s.
End LiveList.

(** ** Objects and freezing (ticdatfactory.py 776-859, utils.py 970-1012) *)

Inductive live_table : Type :=
| LK : ktable -> live_table
| LL : ltable -> live_table.

(** A link dictionary (862-920): entries are keys of native rows. *)
Record link : Type := mkLink { lk_frozen : bool; lk_keys : list pkey }.

(** A TicDat object: tables, [_isFrozen], and the attributes that hold lists of
    dictionaries ("_all_data_dicts", line 778) with the link dictionaries. *)
Record live_obj : Type := mkO {
  o_tables : list (string * live_table);
  o_frozen : bool;
  o_attrs : list (string * list nat);
  o_links : list link
}.

(** A call on one table of an object, ticdatfactory.py 696-765. *)
Inductive oop : Type :=
| OnK : string -> kop -> oop
| OnL : string -> lop -> oop
| SetAttr : string -> live_table -> oop           (** [dat.t = x] *)
| LinkSet : nat -> pkey -> oop.                   (** assignment into a link dictionary *)

Section Objects.
  Variable sch : schema.
  Variable dv : defaults.

  (** One such call, ticdatfactory.py 696-765. *)
  Definition ostep (d : live_obj) (o : oop) : live_obj * bool :=
    match o with
    | OnK t ko =>
        match dget String.eqb (o_tables d) t with
        | Some (LK s) =>
            let (s', r) := kstep dv t (ts_of sch t) s ko in
            (mkO (dset String.eqb (o_tables d) t (LK s')) (o_frozen d) (o_attrs d) (o_links d), r)
        | _ => (d, true)
        end
    | OnL t lo =>
        match dget String.eqb (o_tables d) t with
        | Some (LL s) =>
            let (s', r) := lstep dv t (ts_of sch t) s lo in
            (mkO (dset String.eqb (o_tables d) t (LL s')) (o_frozen d) (o_attrs d) (o_links d), r)
        | _ => (d, true)
        end
    | SetAttr t x =>  (* utils.py 973-976 *)
        if o_frozen d then (d, true)
        else (mkO (dset String.eqb (o_tables d) t x) (o_frozen d) (o_attrs d) (o_links d), false)
    | LinkSet i k =>
        match nth_error (o_links d) i with
        | Some l => if lk_frozen l then (d, true)
                    else (mkO (o_tables d) (o_frozen d) (o_attrs d)
                            (set_at i (mkLink false (lk_keys l ++ [k])) (o_links d)), false)
        | None => (d, true)
        end
    end.

  (** A sequence of such calls, ticdatfactory.py 696-765. *)
  Definition orun (d : live_obj) (ops : list oop) : live_obj := fold_left (fun d o => fst (ostep d o)) ops d.

  (** ticdatfactory.py 1686-1688 with row_checking="strict" (plain dicts pass if they have the
      right fields), then 748-749: [_dataFrozen] cannot be set on plain dicts. *)
  Definition freeze_row (r : rowobj) : option rowobj :=
    match r with
    | RoRow _ c => Some (RoRow true c)
    | RoFree _ [] => Some (RoFree true [])
    | RoFree _ _ => None
    | RoRaw _ => None
    end.

  (** ticdatfactory.py 744-760 *)
  Definition freeze_table (x : live_table) : option live_table :=
    match x with
    | LK s => option_map (fun l => LK (mkK true l))
                (map_opt (fun kr => option_map (pair (fst kr)) (freeze_row (snd kr))) (k_rows s))
    | LL s => option_map (fun l => LL (mkL true l)) (map_opt freeze_row (l_rows s))
    end.

  (** ticdatfactory.py 761-764: [getattr(self, "_allDataDicts", ())]. *)
  Definition freeze_links (d : live_obj) : list link :=
    fold_left (fun ls i => match nth_error ls i with
                           | Some l => set_at i (mkLink true (lk_keys l)) ls
                           | None => ls
                           end)
      (dget_or String.eqb (o_attrs d) "_allDataDicts" []) (o_links d).

  (** utils.py 985-1012 [freeze_me]. *)
  Definition freeze (d : live_obj) : option live_obj :=
    match map_opt (fun tx => option_map (pair (fst tx)) (freeze_table (snd tx))) (o_tables d) with
    | Some ts => Some (mkO ts true (o_attrs d) (freeze_links d))
    | None => None
    end.
End Objects.
