(** * DataFrames: copy_to_pandas (ticdatfactory.py 1607-1676), TicDat objects made from
    DataFrames (776-815, 1196-1217), the PanDat constructor, good_pan_dat_object and
    copy_to_tic_dat (pandatfactory.py 982-1106).

    A DataFrame is an index (names of its levels, none for the integer index that
    pandas makes), columns with different names, and rows of index cells and column
    cells.  Pandas may change the cells of a column when it builds a DataFrame from
    lists (None to NaN among numbers): [settle] is that change, an oracle.  Not
    modelled: Series, generator tables, [Sloc], dtypes beyond [settle],
    constructor arguments of PanDat other than DataFrames and lists of rows. *)
From Coq Require Import ZArith Bool List String Arith.
From Verif Require Import PyVal PyDict Data FindTypes FK Obj Factory InfIO Json.
Import ListNotations.
Local Open Scope string_scope.
Local Open Scope list_scope.

(** A column label: a name, or a position when [DataFrame] got no names (pandatfactory.py
    1001-1007). *)
Inductive colname : Type :=
| CName : string -> colname
| CPos  : nat -> colname.

(** Equality of labels, pandatfactory.py 1001-1010. *)
Definition col_eqb (a b : colname) : bool :=
  match a, b with
  | CName x, CName y => String.eqb x y
  | CPos x, CPos y => Nat.eqb x y
  | _, _ => false
  end.

(** A pandas DataFrame, as made by ticdatfactory.py 1652-1676. *)
Record frame : Type := mkFr {
  fr_index : list colname;
  fr_cols : list colname;
  fr_rows : list (list value * list value)
}.

(** What an attribute of a pandas-side object or an argument is: a DataFrame, a list of
    rows (of equal length), or a string (pandatfactory.py 986-1057). *)
Inductive pattr : Type :=
| PFrame : frame -> pattr
| PRows  : nat -> list (list value) -> pattr
| PText  : string -> pattr.

(** [f in df.columns], ticdatfactory.py 788-793. *)
Definition has_col (fr : frame) (f : string) : bool := existsb (col_eqb (CName f)) (fr_cols fr).

(** utils.py 64-67: the row dict of a row, looked up. *)
Definition cell_of (cols : list colname) (cells : list value) (f : string) : option value :=
  option_map snd (find (fun cv => col_eqb (CName f) (fst cv)) (rev (combine cols cells))).

(** [df[f] = d] for a new column (ticdatfactory.py 793, pandatfactory.py 1010). *)
Definition add_col (fr : frame) (f : string) (d : value) : frame :=
  mkFr (fr_index fr) (fr_cols fr ++ [CName f]) (map (fun r => (fst r, snd r ++ [d])) (fr_rows fr)).

(** ticdatfactory.py 788-793, pandatfactory.py 1008-1010 *)
Definition fill (dv : list (string * value)) (fr : frame) : frame :=
  fold_left (fun fr fd => if has_col fr (fst fd) then fr else add_col fr (fst fd) (snd fd)) dv fr.

(** [df.reset_index(drop=False)] when the levels have names: an existing column of that
    name is an error (ticdatfactory.py 788-803, pandatfactory.py 999-1003). *)
Definition reset_index (fr : frame) : option frame :=
  if existsb (fun c => existsb (col_eqb c) (fr_cols fr)) (fr_index fr) then None
  else Some (mkFr [] (fr_index fr ++ fr_cols fr) (map (fun r => ([], fst r ++ snd r)) (fr_rows fr))).

(** [default_values.get(t, {})], ticdatfactory.py 790, pandatfactory.py 1008. *)
Definition defaults_of (dv : defaults) (t : string) : list (string * value) :=
  match dget String.eqb dv t with Some l => l | None => [] end.

Section Build.
  Variable settle : list value -> list value.

  (** Column [k] of a list of rows; pandas fills short rows with None ([DataFrame(rows)] of ticdatfactory.py 1652-1676, pandatfactory.py 994-1000). *)
  Definition column (rows : list (list value)) (k : nat) : list value := map (fun r => nth k r VNone) rows.

  (** What pandas makes of the columns of [DataFrame(rows)], ticdatfactory.py 1652-1676. *)
  Definition settled (n : nat) (rows : list (list value)) : list (list value) :=
    map (fun i => map (fun k => nth i (settle (column rows k)) VNone) (seq 0 n)) (seq 0 (List.length rows)).

  (** The number of columns of [DataFrame(rows)], pandatfactory.py 994-1000. *)
  Definition width (rows : list (list value)) : nat := fold_right Nat.max 0 (map (@List.length value) rows).

  (** [DataFrame(rows, columns=fields)] (ticdatfactory.py 1652-1676). *)
  Definition dataframe (fields : list string) (rows : list (list value)) : option frame :=
    match rows with
    | [] => Some (mkFr [] (map CName fields) [])
    | _ => if Nat.eqb (width rows) (List.length fields)
           then Some (mkFr [] (map CName fields) (map (fun r => ([], r)) (settled (List.length fields) rows)))
           else None
    end.

  (** [df.set_index(first n columns, drop=drop)] (ticdatfactory.py 1665-1672). *)
  Definition set_index (n : nat) (drop : bool) (fr : frame) : frame :=
    mkFr (firstn n (fr_cols fr)) (if drop then skipn n (fr_cols fr) else fr_cols fr)
      (map (fun r => (firstn n (snd r), if drop then skipn n (snd r) else snd r)) (fr_rows fr)).

  (** ticdatfactory.py 1668: [bool(dfs if drop_pk_columns == None else drop_pk_columns)] *)
  Definition drops (drop : option bool) (ts : tschema) : bool :=
    match drop with Some b => b | None => match tdf ts with [] => false | _ => true end end.

  (** ticdatfactory.py 1652-1675 for one table. *)
  Definition copy_frame (drop : option bool) (reset : bool) (ts : tschema) (tb : otable) : option frame :=
    match full_rows tb with
    | [] => Some (mkFr [] (map CName (tpk ts ++ tdf ts)) [])
    | rows =>
        match tb with
        | OKeyed _ => option_map (fun fr => if reset then fr else set_index (List.length (tpk ts)) (drops drop ts) fr)
                        (dataframe (tpk ts ++ tdf ts) rows)
        | OListed _ => dataframe (tdf ts) rows
        end
    end.

  (** ticdatfactory.py 1607-1676: [generics] are the generic tables; [sch] the others.  An empty
      [table_restrictions] means all.  The check of the argument (1638) is in Good.v. *)
  Definition copy_to_pandas (sch : schema) (generics : list string) (restrict : list string) (drop : option bool) (reset : bool)
    (d : obj) : option (list (string * pattr)) :=
    let all := map fst sch ++ generics in
    let names := match restrict with [] => all | _ => restrict end in
    if forallb (fun t => mem_str t all) names then
      map_opt (fun t => option_map (pair t)
        (if mem_str t generics then Some (PText t)
         else match dget String.eqb sch t with
              | Some ts => option_map PFrame (copy_frame drop reset ts (d t))
              | None => None
              end)) names
    else None.
End Build.

(** ** TicDat objects from DataFrames *)

(** ticdatfactory.py 1204-1217 (generous): columns for all fields; "name" is refused. *)
Definition good_frame (ts : tschema) (fr : frame) : bool :=
  negb (mem_str "name" (tdf ts)) &&
  negb (mem_str "name" (tpk ts) && Nat.ltb 1 (List.length (tpk ts))) &&
  forallb (has_col fr) (tdf ts) &&
  (list_eqb col_eqb (map CName (tpk ts)) (fr_index fr) || forallb (has_col fr) (tpk ts)).

(** ticdatfactory.py 804-812 *)
Definition frame_entry (dv : defaults) (t : string) (ts : tschema) (cols : list colname) (cells : list value) : option (pkey * row) :=
  match map_opt (cell_of cols cells) (tpk ts), map_opt (cell_of cols cells) (tdf ts) with
  | Some k, Some r => option_map (pair (match k with [v] => KAtom v | _ => KTup k end)) (row_factory dv t ts (RDict (combine (tdf ts) r)))
  | _, _ => None
  end.

(** ticdatfactory.py 788-815 for one table. *)
Definition frame_table (dv : defaults) (t : string) (ts : tschema) (fr0 : frame) : option otable :=
  let fr := fill (defaults_of dv t) fr0 in
  if good_frame ts fr then
    match tpk ts with
    | [] => option_map (fun l => OListed (map snd l)) (map_opt (fun r => frame_entry dv t ts (fr_cols fr) (snd r)) (fr_rows fr))
    | _ =>
        match (if forallb (has_col fr) (tpk ts) then Some fr else reset_index fr) with
        | Some fr' => option_map (fun l => OKeyed (dict_of pkey_eqb l))
                        (map_opt (fun r => frame_entry dv t ts (fr_cols fr') (snd r)) (fr_rows fr'))
        | None => None
        end
    end
  else None.

(** One argument of the constructor (785 and 788-815): a table and the length of the
    argument, or a generic table.  A string is refused ([DataFrame] of a string raises). *)
Definition frame_one (sch : schema) (generics : list string) (dv : defaults) (ti : string * pattr)
  : option (string * ((otable * nat) + frame)) :=
  match snd ti with
  | PFrame fr =>
      if mem_str (fst ti) generics then Some (fst ti, inr fr)
      else match dget String.eqb sch (fst ti) with
           | Some ts => option_map (fun tb => (fst ti, inl (tb, List.length (fr_rows fr)))) (frame_table dv (fst ti) ts fr)
           | None => None
           end
  | _ => None
  end.

(** ticdatfactory.py 776-859 when every argument is a DataFrame.  The second part of the result are the
    generic tables. *)
Definition from_frames (sch : schema) (generics : list string) (dv : defaults) (mode : string) (inputs : list (string * pattr))
  : option (obj * list (string * frame)) :=
  match map_opt (frame_one sch generics dv) inputs with
  | None => None
  | Some built =>
      let d := fun t => match dget String.eqb built t with
                        | Some (inl (tb, _)) => tb
                        | _ => match dget String.eqb sch t with Some ts => no_rows ts | None => OListed [] end
                        end in
      if String.eqb mode "assert" &&
         existsb (fun tb => match snd tb with inl (tb, n) => Nat.ltb (out_length tb) n | inr _ => false end) built
      then None
      else Some (d, flat_map (fun tb => match snd tb with inr fr => [(fst tb, fr)] | inl _ => [] end) built)
  end.

(** ** PanDat *)

(** pandatfactory.py 1001-1003 *)
Definition unindex (ts : tschema) (fr : frame) : option frame :=
  match tpk ts with
  | [] => Some fr
  | _ =>
      if negb (existsb (has_col fr) (tpk ts)) &&
         forallb (fun p => existsb (col_eqb (CName p)) (fr_index fr)) (tpk ts) &&
         forallb (fun c => existsb (col_eqb c) (map CName (tpk ts))) (fr_index fr)
      then reset_index fr else Some fr
  end.

(** pandatfactory.py 1004-1007: columns 0, 1, ... are given the names of the fields. *)
Definition numbered (fr : frame) : bool :=
  list_eqb col_eqb (fr_cols fr) (map CPos (seq 0 (List.length (fr_cols fr)))).

(** [df.rename(columns=...)], pandatfactory.py 1004-1007. *)
Definition rename (ts : tschema) (fr : frame) : frame :=
  if numbered fr && Nat.leb (List.length (tfields ts)) (List.length (fr_cols fr))
  then mkFr (fr_index fr) (map CName (tfields ts) ++ skipn (List.length (tfields ts)) (fr_cols fr)) (fr_rows fr)
  else fr.

(** pandatfactory.py 1017-1023: the fields first, then the other columns. *)
Definition reorder (ts : tschema) (fr : frame) : frame :=
  let af := map CName (tfields ts) in
  let extra := filter (fun c => negb (existsb (col_eqb c) af)) (fr_cols fr) in
  let pick cells c := match find (fun cv => col_eqb c (fst cv)) (combine (fr_cols fr) cells) with Some cv => snd cv | None => VNone end in
  if list_eqb col_eqb (firstn (List.length af) (fr_cols fr)) af then fr
  else mkFr (fr_index fr) (af ++ extra) (map (fun r => (fst r, map (pick (snd r)) (af ++ extra))) (fr_rows fr)).

Section Pan.
  Variable settle : list value -> list value.

  (** pandatfactory.py 994-1000: [DataFrame(x)] of an argument. *)
  Definition as_frame (x : pattr) : option frame :=
    match x with
    | PFrame fr => Some fr
    | PRows n rows => Some (mkFr [] (map CPos (seq 0 n)) (map (fun r => ([], r)) (settled settle n rows)))
    | PText _ => None
    end.

  (** pandatfactory.py 988-989: falsy arguments are dropped. *)
  Definition falsy (x : pattr) : bool :=
    match x with PFrame _ => false | PRows _ rows => match rows with [] => true | _ => false end | PText s => String.eqb s "" end.

  (** pandatfactory.py 990-1010 and 1013-1023 for one table. *)
  Definition pan_table (dv : defaults) (t : string) (ts : tschema) (x : pattr) : option frame :=
    match as_frame x with
    | None => None
    | Some fr0 =>
        match unindex ts fr0 with
        | None => None
        | Some fr1 =>
            let fr2 := rename ts fr1 in
            let fr3 := if numbered fr2 then fr2 else fill (defaults_of dv t) fr2 in
            if forallb (has_col fr3) (tfields ts) then Some (reorder ts fr3) else None
        end
    end.

  (** pandatfactory.py 986-1023; generic tables hold any DataFrame and are left out. *)
  Definition pan_dat (sch : schema) (dv : defaults) (inputs : list (string * pattr)) : option (string -> frame) :=
    match map_opt (fun tx => match dget String.eqb sch (fst tx) with
                             | Some ts => option_map (pair (fst tx)) (pan_table dv (fst tx) ts (snd tx))
                             | None => None
                             end) (filter (fun tx => negb (falsy (snd tx))) inputs) with
    | None => None
    | Some built =>
        Some (fun t => match dget String.eqb built t with
                       | Some fr => fr
                       | None => match dget String.eqb sch t with
                                 | Some ts => mkFr [] (map CName (tfields ts)) []
                                 | None => mkFr [] [] []
                                 end
                       end)
    end.
End Pan.

(** pandatfactory.py 1032-1057 on an object given by its attributes. *)
Definition good_pan (sch : schema) (generics : list string) (x : string -> option pattr) : bool :=
  forallb (fun t => match x t with Some (PFrame _) => true | _ => false end) (map fst sch ++ generics) &&
  forallb (fun tts => match x (fst tts) with Some (PFrame fr) => forallb (has_col fr) (tfields (snd tts)) | _ => false end) sch.

(** pandatfactory.py 1072-1106; the TicDatFactory made from the schema has no defaults. *)
Definition copy_to_tic_dat (sch : schema) (generics : list string) (mode : string) (x : string -> option pattr)
  : option (obj * list (string * frame)) :=
  if good_pan sch generics x then
    from_frames sch generics [] mode
      (flat_map (fun t => match x t with Some a => [(t, a)] | None => [] end) (map fst sch ++ generics))
  else None.
