(** * Utilities: Slicer (utils.py 848-907), duplicate counting (743-780 and the
      csv and Excel versions), pandas [duplicated], [log_table] (1173-1208),
      pruning of trailing empty rows (pandatfactory.py 32-54, xls.py 56-79). *)
From Coq Require Import ZArith Bool List String Ascii Arith DecimalString.
From Verif Require Import PyVal PyDict PyStr Data InfIO RowPred.
Import ListNotations.
Local Open Scope list_scope.

(** ** Slicer *)

(** Elements are of any hashable type: [eqb] is Python's [==] and [star] the
    test [x == "*"].  The gurobipy branch ([self._gu]) is not modelled; the
    model is the class without gurobipy, or with indices that contain
    containers. *)
Section Slicer.
  Context {A : Type}.
  Variable eqb : A -> A -> bool.
  Variable star : A -> bool.

  (** Equality of tuples, utils.py 848-907. *)
  Definition tuple_eqb : list A -> list A -> bool := list_eqb eqb.
  (** Equality of the keys of [self._archived_slicings], utils.py 848-907. *)
  Definition posns_eqb : list nat -> list nat -> bool := list_eqb Nat.eqb.

  (** utils.py 848-870: the state of a [Slicer]. *)
  Record slicer : Type := mkSl {
    sl_indices : list (list A);
    sl_archive : list (list nat * list (list A * list (list A)))
  }.

  (** utils.py 852-874 *)
  Definition make_slicer (l : list (list A)) : outcome slicer :=
    if (match l with
        | [] => true
        | x :: _ => forallb (fun y => Nat.eqb (List.length y) (List.length x)) l && negb (existsb (existsb star) l)
        end)
    then Ret (mkSl l []) else Raise.

  (** utils.py 891 *)
  Fixpoint wildcards_from (n : nat) (args : list A) : list nat :=
    match args with
    | [] => []
    | x :: args' => if star x then n :: wildcards_from (S n) args' else wildcards_from (S n) args'
    end.
  (** utils.py 892 *)
  Definition fixedposns (n : nat) (w : list nat) : list nat :=
    filter (fun i => negb (existsb (Nat.eqb i) w)) (seq 0 n).
  (** utils.py 893-894 *)
  Definition fa (posns : list nat) (t : list A) : list A :=
    flat_map (fun i => match nth_error t i with Some x => [x] | None => [] end) posns.

  (** utils.py 895-897 *)
  Definition fill (posns : list nat) (l : list (list A)) : list (list A * list (list A)) :=
    fold_left (fun d t => dset tuple_eqb d (fa posns t) (dget_or tuple_eqb d (fa posns t) [] ++ [t])) l [].

  (** utils.py 876-898.  The final lookup in the defaultdict stores an empty list when
      nothing matches. *)
  Definition slice (s : slicer) (args : list A) : outcome (list (list A)) * slicer :=
    match sl_indices s with
    | [] => (Ret [], s)
    | x :: _ =>
        if Nat.eqb (List.length args) (List.length x) then
          let w := wildcards_from 0 args in
          let posns := fixedposns (List.length args) w in
          let slicing := match dget posns_eqb (sl_archive s) w with
                         | Some d => d
                         | None => fill posns (sl_indices s)
                         end in
          let found := dget tuple_eqb slicing (fa posns args) in
          let slicing' := match found with
                          | Some _ => slicing
                          | None => dset tuple_eqb slicing (fa posns args) []
                          end in
          (Ret (match found with Some l => l | None => [] end),
           mkSl (sl_indices s) (dset posns_eqb (sl_archive s) w slicing'))
        else (Raise, s)
    end.

  (** utils.py 899-905 *)
  Definition clear (s : slicer) : slicer := mkSl (sl_indices s) [].

  (** Calls on a [Slicer], utils.py 871-907. *)
  Inductive sop : Type := OSlice (args : list A) | OClear.
  (** One such call, utils.py 871-907. *)
  Definition sstep (s : slicer) (o : sop) : slicer :=
    match o with OSlice args => snd (slice s args) | OClear => clear s end.
  (** A sequence of such calls, utils.py 871-907. *)
  Definition srun (s : slicer) (ops : list sop) : slicer := fold_left sstep ops s.
End Slicer.

(** ** Duplicates *)

(** [rtn[t][k] += 1] over the rows, [rtn[t]] a [defaultdict(int)] (utils.py 743-757, csvtd.py 148-161, xls.py 301-316). *)
Definition tally (keys : list key) : list (key * nat) :=
  fold_left (fun d k => dset key_pyeq d k (S (dget_or key_pyeq d k 0))) keys [].

(** [tuple(row[f] for f in flds)]; a missing field raises.  That the tuple of
    one cell is replaced by the cell does not identify different keys of a
    table and is left out (utils.py 743-757). *)
Fixpoint cells_of (row : list (string * value)) (flds : list string) : outcome key :=
  match flds with
  | [] => Ret []
  | f :: flds' =>
      match dget String.eqb row f, cells_of row flds' with
      | Some v, Ret k => Ret (v :: k)
      | _, _ => Raise
      end
  end.
(** The keys of the rows counted, utils.py 743-757. *)
Fixpoint keys_of (flds : list string) (rows : list (list (string * value))) : outcome (list key) :=
  match rows with
  | [] => Ret []
  | r :: rows' => match cells_of r flds, keys_of flds rows' with
                  | Ret k, Ret l => Ret (k :: l)
                  | _, _ => Raise
                  end
  end.

(** utils.py 743-780, csvtd.py 147-161, xls.py 299-316: [pks] are the tables
    with a non-empty primary key, [rows t] the rows read for table [t]. *)
Fixpoint find_duplicates (pks : list (string * list string)) (rows : string -> list (list (string * value)))
  : outcome (list (string * list (key * nat))) :=
  match pks with
  | [] => Ret []
  | (t, flds) :: pks' =>
      match keys_of flds (rows t), find_duplicates pks' rows with
      | Ret ks, Ret rest =>
          match filter (fun kn => Nat.ltb 1 (snd kn)) (tally ks) with
          | [] => Ret rest
          | d => Ret ((t, d) :: rest)
          end
      | _, _ => Raise
      end
  end.

(** pandas [DataFrame.duplicated(subset, keep=...)], as documented: a scan
    with the keys already seen (pandatfactory.py 1536-1560). *)
Inductive keep : Type := KFirst | KLast | KNone.
Section Duplicated.
  Context {K : Type}.
  Variable eqb : K -> K -> bool.
  (** Helper of [duplicated], pandatfactory.py 1559. *)
  Fixpoint seen_before (seen l : list K) : list bool :=
    match l with
    | [] => []
    | k :: l' => existsb (eqb k) seen :: seen_before (k :: seen) l'
    end.
  (** [a | b] of two boolean Series, for [keep=False], pandatfactory.py 1559. *)
  Fixpoint or_list (a b : list bool) : list bool :=
    match a, b with x :: a', y :: b' => (x || y) :: or_list a' b' | _, _ => [] end.
  (** [df.duplicated(pk, keep)], pandatfactory.py 1559. *)
  Definition duplicated (kp : keep) (l : list K) : list bool :=
    match kp with
    | KFirst => seen_before [] l
    | KLast => rev (seen_before [] (rev l))
    | KNone => or_list (seen_before [] l) (rev (seen_before [] (rev l)))
    end.
End Duplicated.

(** [df[list(mask)]] (pandatfactory.py 1560-1562). *)
Fixpoint masked {A} (mask : list bool) (l : list A) : list A :=
  match mask, l with
  | b :: mask', x :: l' => if b then x :: masked mask' l' else masked mask' l'
  | _, _ => []
  end.

(** pandatfactory.py 1553-1562, [as_table=True] *)
Definition pan_duplicates (eqb : key -> key -> bool) (kp : keep) (pks : list (string * list string))
  (rows : string -> list (list (string * value))) : outcome (list (string * list (list (string * value)))) :=
  fold_right (fun tf acc =>
    match acc with
    | Raise => Raise
    | Ret rest =>
        match snd tf with
        | [] => Ret rest
        | flds =>
            match keys_of flds (rows (fst tf)) with
            | Raise => Raise
            | Ret ks =>
                let dups := duplicated eqb kp ks in
                if existsb (fun b => b) dups then Ret ((fst tf, masked dups (rows (fst tf))) :: rest) else Ret rest
            end
        end
    end) (Ret []) pks.

(** ** log_table ([str] of an int, utils.py 1173-1208) *)

Definition show_z (z : Z) : string := NilZero.string_of_int (Z.to_int z).
(** Helper of [ljust], utils.py 1173-1208. *)
Fixpoint blanks (n : nat) : string := match n with O => EmptyString | S m => String " " (blanks m) end.
(** [s.ljust(n)] (utils.py 1173-1208). *)
Definition ljust (n : nat) (s : string) : string := (s ++ blanks (n - String.length s))%string.
(** utils.py 1173-1208. *)
Definition newline : string := String "010" EmptyString.
(** [l[:n]] (utils.py 1173-1208). *)
Definition slice_to {A} (n : Z) (l : list A) : list A :=
  firstn (Z.to_nat (if Z.ltb n 0 then Z.of_nat (List.length l) + n else n)) l.
(** ["".join], utils.py 1173-1208. *)
Definition concat_str (l : list string) : string := fold_right append EmptyString l.

Section Log.
  Context {A : Type}.
  Variable formatter : A -> string.

  (** utils.py 1195-1202 *)
  Definition width (cols : nat) : nat :=
    if Nat.leb cols 2 then 30 else if Nat.eqb cols 3 then 25 else if Nat.eqb cols 4 then 20 else 18.

  (** utils.py 1206-1207 *)
  Definition log_row (w : nat) (row : list A) : string :=
    (concat_str (map (fun x => ljust w (formatter x)) row) ++ newline)%string.

  (** utils.py 1173-1208: the successive writes.  [seq] is a list of lists; the log file
      is open. *)
  Definition log_table (name : string) (seq : list (list A)) (max_write : Z) : outcome (list string) :=
    match seq with
    | [] => Raise
    | header :: rows =>
        if forallb (fun r => Nat.eqb (List.length r) (List.length header)) rows then
          Ret (("Table " ++ name ++ ":" ++ newline)%string ::
               (if Z.ltb max_write (Z.of_nat (List.length rows))
                then [("(Showing first " ++ show_z max_write ++ " entries out of " ++
                       show_z (Z.of_nat (List.length rows)) ++ " in total)" ++ newline)%string]
                else []) ++
               map (log_row (width (List.length header))) (slice_to (max_write + 1) seq) ++ [newline])
        else Raise
    end.
End Log.

(** ** Pruning trailing empty rows *)

Section Prune.
  Context {R : Type}.
  Variable null_row : R -> bool. (** [all(map(pd.isnull, row.values()))] (pandatfactory.py 32-54). *)

  Definition tail (n : nat) (df : list R) : list R := skipn (List.length df - n) df.
  (** [df.apply] over the rows, pandatfactory.py 32-54. *)
  Definition apply_all (rows : list R) (check : option (bool -> unit -> unit * option (R -> called bool))) : bool :=
    match fst (df_apply (fun r => Returned (null_row r)) check rows tt) with
    | Returned l => forallb (fun b => b) l
    | Raised _ => false
    end.

  (** utils.py 32-38 *)
  Definition is_last_rows_all_nan (df : list R) (last_rows : nat) : bool :=
    apply_all (tail 1 df) None &&
    apply_all (tail last_rows df)
      (Some (fun x st => (st, Some (if x : bool then (fun r => Returned (null_row r)) else (fun _ => Returned false))))).

  (** utils.py 40-48; [Raise] is a failed assertion.  [fuel] bounds the recursion depth;
      [remove_trailing_all_nan] supplies enough (theorem [prune_total]). *)
  Fixpoint find_number (fuel : nat) (df : list R) (mn mx : nat) : outcome nat :=
    match fuel with
    | O => Raise
    | S fuel' =>
        if Nat.ltb mx mn then Raise
        else if Nat.eqb mn mx then
          (if Nat.eqb mn 0 || is_last_rows_all_nan df mn then Ret mn else Raise)
        else
          let med := (mn + mx + 1) / 2 in
          if is_last_rows_all_nan df med then find_number fuel' df med mx
          else find_number fuel' df mn (med - 1)
    end.

  (** utils.py 50-54 *)
  Definition remove_trailing_all_nan (df : list R) : outcome (list R) :=
    match find_number (S (List.length df)) df 0 (List.length df) with
    | Ret 0 => Ret df
    | Ret n => Ret (firstn (List.length df - n) df)
    | Raise => Raise
    end.
End Prune.

(** xls.py 56-79.  [sh_rows] are the rows 1 to [max_row] of the sheet with
    [None] for empty cells, [sh_min] is openpyxl's [min_row], the first row
    that has a cell. *)
Record sheet : Type := mkSheet { sh_min : nat; sh_rows : list (list value) }.
(** xls.py 71-73. *)
Definition nrows (s : sheet) : nat := List.length (sh_rows s) - sh_min s + 1.
(** xls.py 56-79: all cells are None. *)
Definition empty_row (r : list value) : bool := forallb (fun x => match x with VNone => true | _ => false end) r.
(** utils.py 66-69 *)
Fixpoint scan_down (s : sheet) (n : nat) : nat :=
  match n with
  | O => O
  | S i => if empty_row (nth i (sh_rows s) []) then scan_down s i else S i
  end.
(** xls.py 56-79: the last row in use. *)
Definition wrapped_max_row (prune : bool) (s : sheet) : nat :=
  if prune then scan_down s (nrows s) else List.length (sh_rows s).
(** utils.py 76-78 and xls.py 232-240, 220-222: the rows read for a table run up to the
    wrapper's [_max_row].  (A sheet with no value at all leaves [_max_row] at 0,
    which openpyxl takes as no bound; such sheets have no header either.) *)
Definition rows_read (prune : bool) (s : sheet) (first : nat) : list (list value) :=
  skipn first (firstn (wrapped_max_row prune s) (sh_rows s)).
