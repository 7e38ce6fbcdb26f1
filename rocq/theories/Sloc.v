(** * Slices of a Series with a MultiIndex: utils.py 1112-1156 [Sloc], ticdatfactory.py 1660-1671.

    [Series.loc] belongs to pandas and is modelled by what its documentation says ([loc] below): which
    rows it selects and when it raises.  The index levels that pandas drops from the selected rows, and
    the scalar it returns for a complete key, are left out: a result is the list of rows selected. *)
From Coq Require Import ZArith Bool List String Arith.
From Verif Require Import PyVal PyDict Data FindTypes FK Factory InfIO.
Import ListNotations.
Local Open Scope list_scope.

(** One entry of a key: a label, [:], or another slice [a:b] (utils.py 1136-1137). *)
Inductive part : Type :=
| Label : value -> part
| Colon : part
| Span : value -> value -> part.

(** The argument of [sloc[...]]: a single entry or a tuple of them (utils.py 1132). *)
Inductive lockey : Type :=
| One : part -> lockey
| Tuple : list part -> lockey.

(** A Series with a MultiIndex: the number of levels, how many leading levels are sorted (pandas'
    [_lexsort_depth]), and the rows.  utils.py 1130 *)
Record series : Type := mkSeries { s_levels : nat; s_sorted : nat; s_rows : list (list value * value) }.

Section Sloc.
  (** The order of labels within a level. *)
  Variable within : value -> value -> value -> bool.

  (** One level of a row against one entry of the key (pandas, for utils.py 1134). *)
  Definition part_ok (p : part) (v : value) : bool :=
    match p with
    | Label w => pyeq w v
    | Colon => true
    | Span a b => within a b v
    end.

  (** The entries of a key (pandas, for utils.py 1134). *)
  Definition parts_of (k : lockey) : list part :=
    match k with One p => [p] | Tuple l => l end.

  (** The rows a key selects (pandas, for utils.py 1134). *)
  Definition selected (s : series) (k : lockey) : list (list value * value) :=
    filter (fun r => forallb (fun pv => part_ok (fst pv) (snd pv)) (combine (parts_of k) (fst r))) (s_rows s).

  (** [slice(None)], utils.py 1136-1137. *)
  Definition is_colon (p : part) : bool := match p with Colon => true | _ => false end.
  (** A slice that is not [:] (pandas' [is_true_slices]), for utils.py 1134. *)
  Definition is_span (p : part) : bool := match p with Span _ _ => true | _ => false end.

  (** [self._s.loc[key]], utils.py 1134: pandas raises "Too many indexers", UnsortedIndexError for a
      slice of a level that is not sorted, and KeyError when nothing is selected. *)
  Definition loc (s : series) (k : lockey) : outcome (list (list value * value)) :=
    let parts := parts_of k in
    if Nat.ltb (s_levels s) (List.length parts) then Raise
    else if existsb is_span (skipn (s_sorted s) parts) then Raise
    else if forallb is_colon parts then Ret (s_rows s)
    else match selected s k with [] => Raise | l => Ret l end.

  (** utils.py 1132-1139 *)
  Definition sloc (s : series) (k : lockey) : outcome (list (list value * value)) :=
    match loc s k with
    | Ret l => Ret l
    | Raise => match k with
               | Tuple l => if existsb is_colon l then Ret [] else Raise
               | One _ => Raise
               end
    end.
End Sloc.

(** ticdatfactory.py 1660-1671: a column of the frame made for a table, in the order of the table; the
    number of sorted levels depends on that order. *)
Definition column_series (depth : list (list value) -> nat) (levels : nat) (rows : list (list value * value)) : series :=
  mkSeries levels (depth (map fst rows)) rows.
