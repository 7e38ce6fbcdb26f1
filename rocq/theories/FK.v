(** * Foreign keys: finding and removing failures.

    ticdatfactory.py 1690-1787 and 1805-1830 (TicDat),
    pandatfactory.py 1440-1494 and 1515-1535 (PanDat), utils.py 322-335. *)
From Coq Require Import ZArith Bool List String Arith.
From Verif Require Import PyVal PyDict Data FindTypes.
Import ListNotations.

(** One entry of the [foreign_keys] property (ticdatfactory.py 480-497).  The
    mapping is the stored tuple of (native field, foreign field) pairs
    (579-581); a one-element mapping is a simple foreign key.  The cardinality
    component is a function of the others ([cardinality] below). *)
Record fk : Type := mkFk {
  fk_native : string;
  fk_foreign : string;
  fk_map : list (string * string)
}.

(** Equality of the pairs of a mapping (tuples of strings), utils.py 322-335. *)
Definition pair_eqb (a b : string * string) : bool := tf_eqb a b.

(** Equality of [ForeignKey] tuples, the keys of the reports at ticdatfactory.py 1749-1787. *)
Definition fk_eqb (a b : fk) : bool :=
  String.eqb (fk_native a) (fk_native b) && String.eqb (fk_foreign a) (fk_foreign b) &&
  list_eqb pair_eqb (fk_map a) (fk_map b).

(** utils.py 327-332 [foreigntonativemapping]: a dict comprehension, so the
    last pair wins when two native fields share a foreign field. *)
Definition foreign_to_native (m : list (string * string)) : list (string * string) :=
  dict_of String.eqb (map (fun nf => (snd nf, fst nf)) m).

(** utils.py 332-333 [nativetoforeignmapping]: the inverse of the above, so of the native fields
    that share a foreign field only the last is left. *)
Definition native_to_foreign (m : list (string * string)) : list (string * string) :=
  dict_of String.eqb (map (fun fn => (snd fn, fst fn)) (foreign_to_native m)).

(** [l.index(x)] (for a present [x]) (ticdatfactory.py 1736). *)
Fixpoint index_of (x : string) (l : list string) : nat :=
  match l with
  | [] => 0
  | y :: l' => if String.eqb y x then 0 else S (index_of x l')
  end.

(** ticdatfactory.py 1729-1736 [getcell].  A one-field primary key is a
    one-element list here, hence [hd].  The [VNone] defaults are never used for
    well-formed data and fields of the table (the assert at 1730). *)
Definition getcell (ts : tschema) (k : key) (r : row) (f : string) : value :=
  if list_eqb String.eqb [f] (tpk ts) then hd VNone k
  else match dget String.eqb (combine (tdf ts) r) f with
       | Some v => v
       | None => nth (index_of f (tpk ts)) k VNone
       end.

(** ticdatfactory.py 1764-1766: the mapped foreign fields in schema order. *)
Definition ffs_of (fts : tschema) (m : list (string * string)) : list string :=
  filter (dmem String.eqb (foreign_to_native m)) (tfields fts).

(** ticdatfactory.py 1767-1770 [foreign_look_up]; the unwrapping of one-element tuples at 1769
    disappears because one-field keys are one-element lists. *)
Definition look_up (nts : tschema) (m : list (string * string)) (ffs : list string)
  (k : key) (r : row) : key :=
  map (fun ff => getcell nts k r (dget_or String.eqb (foreign_to_native m) ff EmptyString)) ffs.

(** ticdatfactory.py 1738-1747 [get_table_data].  When [fields] is the primary key the table
    itself is searched: a dict is searched by key, a list of rows is searched
    for a tuple (this happens only for [fields = ()]) and never contains one. *)
Definition table_data (fts : tschema) (tb : table) (fields : list string) : list key :=
  if list_eqb String.eqb fields (tpk fts) then
    match tb with
    | Keyed l => map fst l
    | Listed _ => []
    end
  else set_of key_pyeq
         (map (fun rkr => map (getcell fts (snd (fst rkr)) (snd rkr)) fields) (rows_of tb)).

(** ticdatfactory.py 1764-1772: one row against one foreign key. *)
Definition fk_fails (sch : schema) (d : dat) (f : fk) (k : key) (r : row) : bool :=
  let fts := ts_of sch (fk_foreign f) in
  let ffs := ffs_of fts (fk_map f) in
  let lk := look_up (ts_of sch (fk_native f)) (fk_map f) ffs k r in
  negb (existsb (fun k' => key_pyeq k' lk) (table_data fts (d (fk_foreign f)) ffs)).

(** ticdatfactory.py 1773-1779: the native values recorded for a failing row. *)
Definition native_values (sch : schema) (f : fk) (k : key) (r : row) : list value :=
  map (fun nf => getcell (ts_of sch (fk_native f)) k r (fst nf)) (fk_map f).

(** A failing (foreign key, row) (ticdatfactory.py 1764-1779). *)
Record fk_event : Type := mkFe { fe_fk : fk; fe_row : rowid; fe_val : list value }.

(** [rtn_values] and [rtn_pks], ticdatfactory.py 1737-1739. *)
Definition facc : Type := (list (fk * list (list value)) * list (fk * list rowid))%type.

(** ticdatfactory.py 1771-1777. *)
Definition frecord (a : facc) (e : fk_event) : facc :=
  (dadd fk_eqb key_pyeq (fst a) (fe_fk e) (fe_val e),
   dadd fk_eqb rowid_pyeq (snd a) (fe_fk e) (fe_row e)).

(** foreign key -> (native_values, native_pks) (ticdatfactory.py 1782-1787). *)
Definition freport := list (fk * (list (list value) * list rowid)).

(** ticdatfactory.py 1749-1782 [populate_rtn].  [fks] is the list of foreign keys in the order
    the loops at 1755 and 1758 produce them (a dict of frozensets: any
    order). *)
Definition populate_fks (sch : schema) (fks : list fk) (d : dat) (mx : num) : facc :=
  fst (fst (for_each (fun f =>
    for_each (fun rkr (s : facc * nat) =>
      let k := snd (fst rkr) in let r := snd rkr in
      if fk_fails sch d f k r then
        let s' := (frecord (fst s) (mkFe f (fst (fst rkr)) (native_values sch f k r)), S (snd s)) in
        (s', trips mx (snd s'))
      else (s, false))
      (rows_of (d (fk_native f))))
    fks (([], []), 0))).

(** ticdatfactory.py 1690-1787; [None] is the AssertionError for a non-positive bound. *)
Definition find_foreign_key_failures (sch : schema) (fks : list fk) (d : dat) (mx : num)
  : option freport :=
  if num_ltb (of_int 0) mx then
    let a := populate_fks sch fks d mx in
    Some (map (fun fv => (fst fv, (snd fv, dget_or fk_eqb (snd a) (fst fv) []))) (fst a))
  else None.

(** ** Removal *)

(** [l.pop(i)] (ticdatfactory.py 1827). *)
Fixpoint pop_at {A} (i : nat) (l : list A) : list A :=
  match l, i with
  | [], _ => []
  | _ :: l', 0 => l'
  | x :: l', S i' => x :: pop_at i' l'
  end.

(** Equality of (table name, row index), the elements of [needs_removal], ticdatfactory.py
    1817-1826. *)
Definition ti_eqb (a b : string * nat) : bool :=
  String.eqb (fst a) (fst b) && Nat.eqb (snd a) (snd b).

(** Tuple comparison [a <= b] for (table name, row index) (ticdatfactory.py 1826). *)
Definition ti_leb (a b : string * nat) : bool :=
  match String.compare (fst a) (fst b) with
  | Lt => true
  | Gt => false
  | Eq => Nat.leb (snd a) (snd b)
  end.

(** [sorted(l, reverse=True)] (ticdatfactory.py 1826). *)
Fixpoint insert_desc (x : string * nat) (l : list (string * nat)) : list (string * nat) :=
  match l with
  | [] => [x]
  | y :: l' => if ti_leb y x then x :: l else y :: insert_desc x l'
  end.

(** [sorted(needs_removal, reverse=True)], ticdatfactory.py 1826. *)
Definition sort_desc (l : list (string * nat)) : list (string * nat) :=
  fold_right insert_desc [] l.

(** ticdatfactory.py 1817-1824: delete keyed rows, collect positions of unkeyed ones. *)
Definition del_one (sch : schema) (t : string) (s : dat * list (string * nat)) (rid : rowid)
  : dat * list (string * nat) :=
  let (d, need) := s in
  match tpk (ts_of sch t) with
  | _ :: _ =>
      match d t, rid with
      | Keyed l, RPk k =>
          if dmem key_pyeq l k then (upd_tbl d t (Keyed (ddel key_pyeq l k)), need) else (d, need)
      | _, _ => (d, need)
      end
  | [] =>
      match rid with
      | RIdx i => (d, sadd ti_eqb need (t, i))
      | _ => (d, need)
      end
  end.

(** ticdatfactory.py 1826-1827: one position is popped from its table. *)
Definition pop_one (d : dat) (ti : string * nat) : dat :=
  match d (fst ti) with
  | Listed l => upd_tbl d (fst ti) (Listed (pop_at (snd ti) l))
  | _ => d
  end.

(** ticdatfactory.py 1815-1826: one pass of removals. *)
Definition remove_pass (sch : schema) (rep : freport) (d : dat) : dat :=
  let (d1, need) :=
    fold_left (fun s e => fold_left (del_one sch (fk_native (fst e))) (snd (snd e)) s) rep (d, []) in
  fold_left pop_one (sort_desc need) d1.

(** ticdatfactory.py 1805-1830.  The recursion at 1827-1828 is unbounded in the source; [fuel]
    bounds it and [None] is fuel exhaustion (theorem C08 shows that one more
    than the number of rows always suffices). *)
Fixpoint remove_fk_failures (fuel : nat) (sch : schema) (fks : list fk) (propagate : bool) (d : dat)
  : option dat :=
  match fuel with
  | 0 => None
  | S n =>
      match find_foreign_key_failures sch fks d PInf with
      | None => None
      | Some rep =>
          let d' := remove_pass sch rep d in
          match rep with
          | [] => Some d'
          | _ :: _ => if propagate then remove_fk_failures n sch fks true d' else Some d'
          end
      end
  end.

(** The number of rows; only used to bound the recursion of ticdatfactory.py 1828-1829. *)
Definition table_size (tb : table) : nat :=
  match tb with Keyed l => List.length l | Listed l => List.length l end.

(** The number of rows; only used to bound the recursion of ticdatfactory.py 1828-1829. *)
Definition total_rows (sch : schema) (d : dat) : nat :=
  list_sum (map (fun tts => table_size (d (fst tts))) sch).

(** ** Cardinality (ticdatfactory.py 486-495) *)

(** [half_card(tbl, fields) == "one"] (ticdatfactory.py 488-491). *)
Definition half_one (ts : tschema) (fields : list string) : bool :=
  match tpk ts with
  | [] => false
  | pk => forallb (fun p => existsb (String.eqb p) fields) pk
  end.

(** ticdatfactory.py 493: the first half of the cardinality. *)
Definition native_one (sch : schema) (f : fk) : bool :=
  half_one (ts_of sch (fk_native f)) (map fst (fk_map f)).
(** ticdatfactory.py 493-494: the second half of the cardinality. *)
Definition foreign_one (sch : schema) (f : fk) : bool :=
  half_one (ts_of sch (fk_foreign f)) (map snd (fk_map f)).

(** ** PanDat *)

(** A PanDat table: a DataFrame whose columns are the schema's fields
    (pandatfactory.py 986-1023).  Extra columns and the frame index play no
    role in the functions below and are left out. *)
Definition pdat := string -> list row.

(** [row[f]] of a DataFrame row, pandatfactory.py 1469-1487. *)
Definition pcell (ts : tschema) (r : row) (f : string) : value :=
  dget_or String.eqb (combine (tfields ts) r) f VNone.

(** [DataFrame.drop_duplicates(fields)]: the first row of each group (pandatfactory.py 1470). *)
Definition drop_dups {A} (kf : A -> key) (l : list A) : list A :=
  fold_left (fun acc x => if existsb (fun y => key_pyeq (kf y) (kf x)) acc then acc else acc ++ [x]) l [].

(** pandatfactory.py 1469-1476: the parent is de-duplicated on the foreign fields, then its
    columns are overwritten one after the other; the result is indexed by the
    native field names. *)
Definition parent_index (fts : tschema) (m : list (string * string)) (rows : list row) : list key :=
  map (fun r =>
    let c := fold_left (fun c nf => dset String.eqb c (fst nf) (dget_or String.eqb c (snd nf) VNone))
               m (combine (tfields fts) r) in
    map (fun nf => dget_or String.eqb c (fst nf) VNone) m)
    (drop_dups (fun r => map (fun nf => pcell fts r (snd nf)) m) rows).

(** pandatfactory.py 1477-1487: a child row is bad when the left join finds no parent.  The
    [TypeError] fallback (1483, all rows bad) is pandas specific and left
    out.  Join equality is [pyeq] (nulls match nulls, as pandas joins do). *)
Definition pan_fails (sch : schema) (d : pdat) (f : fk) (r : row) : bool :=
  let lk := map (fun nf => pcell (ts_of sch (fk_native f)) r (fst nf)) (fk_map f) in
  negb (existsb (fun k => key_pyeq k lk)
          (parent_index (ts_of sch (fk_foreign f)) (fk_map f) (d (fk_foreign f)))).

(** pandatfactory.py 1440-1494 without a bound: the failing foreign keys with their flags. *)
Definition pan_find (sch : schema) (fks : list fk) (d : pdat) : list (fk * list bool) :=
  filter (fun fb => existsb (fun b => b) (snd fb))
    (map (fun f => (f, map (pan_fails sch d f) (d (fk_native f)))) fks).

(** pandatfactory.py 1441-1452 and 1488-1493 with a bound [mx]: flags for one foreign key,
    threading the failure counter; once the counter reaches the bound every
    later row is flagged good. *)
Fixpoint pan_flags (mx : num) (bad : list bool) (c : nat) (tripped : bool) : list bool * nat :=
  match bad with
  | [] => ([], c)
  | b :: bad' =>
      if tripped then let (fl, c') := pan_flags mx bad' c true in (false :: fl, c')
      else if b then
        let (fl, c') := pan_flags mx bad' (S c) (num_leb mx (of_int (Z.of_nat (S c)))) in (true :: fl, c')
      else let (fl, c') := pan_flags mx bad' c false in (false :: fl, c')
  end.

(** pandatfactory.py 1440-1494 with a bound on the failures. *)
Fixpoint pan_find_bounded (sch : schema) (fks : list fk) (d : pdat) (mx : num) (c : nat)
  : list (fk * list bool) :=
  match fks with
  | [] => []
  | f :: fks' =>
      let bad := map (pan_fails sch d f) (d (fk_native f)) in
      if existsb (fun b => b) bad then
        let (fl, c') := pan_flags mx bad c false in
        if num_leb mx (of_int (Z.of_nat c')) then [(f, fl)]
        else (f, fl) :: pan_find_bounded sch fks' d mx c'
      else pan_find_bounded sch fks' d mx c
  end.

(** [setattr(pan_dat, t, ...)], pandatfactory.py 1528. *)
Definition upd_p (d : pdat) (t : string) (rows : list row) : pdat :=
  fun t' => if String.eqb t t' then rows else d t'.

(** pandatfactory.py 1528: [table[[not _ for _ in rows]]]. *)
Definition drop_flagged (rows : list row) (flags : list bool) : list row :=
  map fst (filter (fun rb => negb (snd rb)) (combine rows flags)).

(** pandatfactory.py 1515-1535: one foreign key per iteration; [fuel] as above. *)
Fixpoint pan_remove (fuel : nat) (sch : schema) (fks : list fk) (d : pdat) : option pdat :=
  match fuel with
  | 0 => None
  | S n =>
      match pan_find sch fks d with
      | [] => Some d
      | (f, flags) :: _ =>
          pan_remove n sch fks (upd_p d (fk_native f) (drop_flagged (d (fk_native f)) flags))
      end
  end.

(** ** Implied foreign keys (ticdatfactory.py 516-540, 583-589) *)

(** ticdatfactory.py 530-534: compose native -> bridge with bridge -> foreign. *)
Definition derive (f1 f2 : fk) : fk :=
  mkFk (fk_native f1) (fk_foreign f2)
    (flat_map (fun fb => match dget String.eqb (foreign_to_native (fk_map f1)) (snd fb) with
                         | Some nf => [(nf, fst fb)]
                         | None => []
                         end) (foreign_to_native (fk_map f2))).

(** [x in l], ticdatfactory.py 530-537. *)
Definition mem_str (x : string) (l : list string) : bool := existsb (String.eqb x) l.

(** ticdatfactory.py 583-589 [_simple_fk]: the foreign fields are exactly the primary key. *)
Definition simple_fk (sch : schema) (f : fk) : bool :=
  let pk := tpk (ts_of sch (fk_foreign f)) in
  let ffs := map snd (fk_map f) in
  forallb (fun p => mem_str p ffs) pk && forallb (fun x => mem_str x pk) ffs.

(** ticdatfactory.py 525-537 [findderivedforeignkey]; the sets are walked in list order. *)
Definition candidates (fks : list fk) : list fk :=
  flat_map (fun f1 => flat_map (fun f2 =>
    if String.eqb (fk_native f2) (fk_foreign f1) then [derive f1 f2] else []) fks) fks.

(** ticdatfactory.py 525-537. *)
Definition find_derived (sch : schema) (fks : list fk) : option fk :=
  hd_error (filter (fun g => negb (existsb (fk_eqb g) fks) && simple_fk sch g) (candidates fks)).

(** ticdatfactory.py 538-539: the while loop; [fuel] bounds it ([None] = exhausted; theorem
    [implied_terminates] gives a sufficient amount for every schema). *)
Fixpoint add_implied (fuel : nat) (sch : schema) (fks : list fk) : option (list fk) :=
  match fuel with
  | 0 => None
  | S n =>
      match find_derived sch fks with
      | None => Some fks
      | Some g => add_implied n sch (fks ++ [g])
      end
  end.
