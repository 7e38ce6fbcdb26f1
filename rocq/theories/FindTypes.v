(** * find_data_type_failures / replace_data_type_failures
    (ticdatfactory.py 1832-1961). *)
From Coq Require Import ZArith Bool List String Arith.
From Verif Require Import PyVal PyDict TypeDict Data.
Import ListNotations.

(** [_data_types]: table -> field -> type (ticdatfactory.py 239). *)
Definition types := list (string * list (string * dtype)).

(** [d[t][f] = v] for a [defaultdict(dict)] (ticdatfactory.py 239). *)
Definition dset2 {V} (d : list (string * list (string * V))) (t f : string) (v : V) :=
  dset String.eqb d t (dset String.eqb (dget_or String.eqb d t []) f v).

(** [d.get(t, {}).get(f)], ticdatfactory.py 1945-1950. *)
Definition dget2 {V} (d : list (string * list (string * V))) (t f : string) : option V :=
  dget String.eqb (dget_or String.eqb d t []) f.

(** The type stored for untyped key fields: [safe_creator nonnull_args] (ticdatfactory.py 1879-1882). *)
Definition nonnull_type : dtype :=
  mkDtype true true true NInf PInf false SStar false false.

(** ticdatfactory.py 1876-1882: the data types of [tmp_tdf].  Simplification:
    [create_from_full_schema(self.schema(...))] reproduces the data types
    (theorems C02/C19), so we start from the factory's own types. *)
Definition tmp_types (sch : schema) (tys : types) : types :=
  fold_left (fun acc tts =>
    fold_left (fun acc pk =>
      if dmem String.eqb (dget_or String.eqb tys (fst tts) []) pk then acc
      else dset2 acc (fst tts) pk nonnull_type)
      (tpk (snd tts)) acc)
    sch tys.

(** ticdatfactory.py 1832-1839 [_get_full_row]: field -> cell.  A one-field key
    is a one-element list here (DESIGN.md, Keys). *)
Definition full_row (ts : tschema) (k : key) (r : row) : list (string * value) :=
  let data := combine (tdf ts) r in
  match tpk ts with
  | [f] => dset String.eqb data f (hd VNone k)
  | pks => dupdate String.eqb data (combine pks k)
  end.

(** [full_row[field]] (1895) or [data_row[field]] (1903).  A missing field
    would raise KeyError; it cannot be missing for well-formed data and types
    on schema fields, which the theorems assume, so the default is never used. *)
Definition row_cell (ts : tschema) (tb : table) (k : key) (r : row) (f : string) : value :=
  match tb with
  | Keyed _ => dget_or String.eqb (full_row ts k r) f VNone
  | Listed _ => dget_or String.eqb (combine (tdf ts) r) f VNone
  end.

(** [primary_key_fields.get(t, ())] of an unknown table, ticdatfactory.py 1889-1893. *)
Definition no_tschema : tschema := mkT [] [].

(** [primary_key_fields.get(t, ())], [data_fields.get(t, ())], ticdatfactory.py 1889-1903. *)
Definition ts_of (sch : schema) (t : string) : tschema :=
  dget_or String.eqb sch t no_tschema.

(** Equality of the keys (table, field) of the report, ticdatfactory.py 1896-1897. *)
Definition tf_eqb (a b : string * string) : bool :=
  String.eqb (fst a) (fst b) && String.eqb (snd a) (snd b).

(** [d[k].add(x)] for a [defaultdict(set)] (ticdatfactory.py 1896-1897). *)
Definition dadd {K A} (keqb : K -> K -> bool) (aeqb : A -> A -> bool)
  (d : list (K * list A)) (k : K) (x : A) : list (K * list A) :=
  dset keqb d k (sadd aeqb (dget_or keqb d k []) x).

(** A failing cell (ticdatfactory.py 1895-1905). *)
Record cell_event : Type := mkEv { ev_t : string; ev_f : string; ev_row : rowid; ev_val : value }.

(** [rtn_values], [rtn_pks] (1875). *)
Definition tacc : Type :=
  (list ((string * string) * list value) * list ((string * string) * list rowid))%type.

(** ticdatfactory.py 1896-1897 *)
Definition trecord (a : tacc) (e : cell_event) : tacc :=
  (dadd tf_eqb pyeq (fst a) (ev_t e, ev_f e) (ev_val e),
   dadd tf_eqb rowid_pyeq (snd a) (ev_t e, ev_f e) (ev_row e)).

(** ticdatfactory.py 1883-1888 [inc_failures_trips_end]: the counter exists only for a finite
    bound. *)
Definition trips (mx : num) (c : nat) : bool :=
  if num_ltb mx PInf then num_leb mx (of_int (Z.of_nat c)) else false.

(** A report: (table, field) -> (bad_values, pks) (ticdatfactory.py 1908-1914). *)
Definition treport := list ((string * string) * (list value * list rowid)).

Section Find.
  Variable parses : value -> bool.

  (** ticdatfactory.py 1889-1907 [populate_rtn]. *)
  Definition populate_types (sch : schema) (tys : types) (d : dat) (mx : num) : tacc :=
    fst (fst (for_each (fun ttr =>
      let t := fst ttr in
      let ts := ts_of sch t in
      for_each (fun rkr =>
        for_each (fun fdt (s : tacc * nat) =>
          let v := row_cell ts (d t) (snd (fst rkr)) (snd rkr) (fst fdt) in
          if negb (valid_data parses (snd fdt) v) then
            let s' := (trecord (fst s) (mkEv t (fst fdt) (fst (fst rkr)) v), S (snd s)) in
            (s', trips mx (snd s'))
          else (s, false))
          (snd ttr))
        (rows_of (d t)))
      (tmp_types sch tys) (([], []), 0))).

  (** ticdatfactory.py 1840-1914.  [None] is the AssertionError for a non-positive bound. *)
  Definition find_data_type_failures (sch : schema) (tys : types) (d : dat) (mx : num)
    : option treport :=
    if num_ltb (of_int 0) mx then
      let a := populate_types sch tys d mx in
      Some (map (fun tv => (fst tv, (snd tv, dget_or tf_eqb (snd a) (fst tv) []))) (fst a))
    else None.

  (** ** Replacement (ticdatfactory.py 1956-1959) *)

  Definition set_nth_cell (fs : list string) (r : row) (f : string) (v : value) : row :=
    map (fun fv => if String.eqb (fst fv) f then v else snd fv) (combine fs r).

  (** [getattr(tic_dat, table)[pk][field] = value] (1959). *)
  Fixpoint set_keyed (ts : tschema) (l : list (key * row)) (k : key) (f : string) (v : value) :=
    match l with
    | [] => []
    | (k', r) :: l' => if key_pyeq k' k then (k', set_nth_cell (tdf ts) r f v) :: l'
                       else (k', r) :: set_keyed ts l' k f v
    end.

  (** The assignment of ticdatfactory.py 1959 for a table without primary key. *)
  Fixpoint set_listed (ts : tschema) (l : list row) (i : nat) (f : string) (v : value) :=
    match l, i with
    | [], _ => []
    | r :: l', 0 => set_nth_cell (tdf ts) r f v :: l'
    | r :: l', S i' => r :: set_listed ts l' i' f v
    end.

  (** The assignment of ticdatfactory.py 1959. *)
  Definition set_cell (ts : tschema) (tb : table) (rid : rowid) (f : string) (v : value) : table :=
    match tb, rid with
    | Keyed l, RPk k => Keyed (set_keyed ts l k f v)
    | Listed l, RIdx i => Listed (set_listed ts l i f v)
    | _, _ => tb
    end.

  (** Default values: [_default_values] (table -> field -> value) (ticdatfactory.py 678-681). *)
  Definition defaults := list (string * list (string * value)).

  (** The argument [replacement_values] of ticdatfactory.py 1916. *)
  Definition replacements := list ((string * string) * value).

  (** ticdatfactory.py 1937-1939 *)
  Definition repl_ok (sch : schema) (rv : replacements) : bool :=
    forallb (fun kv => dmem String.eqb sch (fst (fst kv)) &&
                       existsb (String.eqb (snd (fst kv))) (tdf (ts_of sch (fst (fst kv))))) rv.

  (** ticdatfactory.py 1945-1950 [real_replacements]. *)
  Definition real_replacements (sch : schema) (tys : types) (dv : defaults) (rv : replacements)
    : replacements :=
    fold_left (fun acc ttr =>
      fold_left (fun acc fdt =>
        if existsb (String.eqb (fst fdt)) (tpk (ts_of sch (fst ttr))) then acc
        else dset tf_eqb acc (fst ttr, fst fdt)
               (match dget tf_eqb rv (fst ttr, fst fdt) with
                | Some v => v
                | None => match dget2 dv (fst ttr) (fst fdt) with
                          | Some v => v
                          | None => VNum (of_int 0)
                          end
                end))
        (snd ttr) acc)
      tys [].

  (** ticdatfactory.py 1951-1954: every needed replacement is itself valid. *)
  Definition replacements_valid (tys : types) (needed : treport) (rr : replacements) : bool :=
    forallb (fun kv =>
      if dmem tf_eqb needed (fst kv) then
        match dget2 tys (fst (fst kv)) (snd (fst kv)) with
        | Some dt => valid_data parses dt (snd kv)
        | None => false
        end
      else true) rr.

  (** ticdatfactory.py 1956-1959: the edits. *)
  Definition apply_replacements (sch : schema) (d : dat) (needed : treport) (rr : replacements) : dat :=
    fold_left (fun d e =>
      match dget tf_eqb rr (fst e) with
      | None => d
      | Some v =>
          fold_left (fun d rid =>
            upd_tbl d (fst (fst e))
              (set_cell (ts_of sch (fst (fst e))) (d (fst (fst e))) rid (snd (fst e)) v))
            (snd (snd e)) d
      end) needed d.

  (** The outcome of a mutating call: the state of the data object when the
      call returns, and whether it raised (ticdatfactory.py 1916-1961). *)
  Record outcome : Type := mkOut { out_dat : dat; raised : bool }.

  (** ticdatfactory.py 1916-1961.  The final assert (1960-1961) is covered by theorem C05 (it
      never fires). *)
  Definition replace_data_type_failures (sch : schema) (tys : types) (dv : defaults)
    (d : dat) (rv : replacements) : outcome :=
    if repl_ok sch rv then
      match find_data_type_failures sch tys d PInf with
      | None => mkOut d true
      | Some [] => mkOut d false
      | Some needed =>
          let rr := real_replacements sch tys dv rv in
          if replacements_valid tys needed rr
          then mkOut (apply_replacements sch d needed rr) false
          else mkOut d true
      end
    else mkOut d true.
End Find.
