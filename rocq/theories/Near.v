(** * Comparison within a tolerance: utils.py 1305-1325 (per_error, nearly_same), 934-940
    (safe_apply), ticdatfactory.py 1305-1351 (_same_data with its arguments), pandatfactory.py
    1093-1122 (_copy_to_tic_dat, _same_data).

    The arithmetic is exact: [per_error] rounds its subtraction and division to floats, here the
    quotient is kept as a fraction; ints beyond the floats (where [float(x)] raises) are not singled
    out.  Generic tables have at least one column and columns named by strings. *)
From Coq Require Import ZArith Bool List String Arith.
From Verif Require Import PyVal PyDict Data FindTypes FK Obj Factory InfIO Json Frames.
Import ListNotations.
Local Open Scope string_scope.
Local Open Scope list_scope.

(** A Python float: NaN or a number (utils.py 1308-1309: [float(x)]). *)
Inductive fl : Type :=
| FNaN : fl
| FNum : num -> fl.

(** Python [a < b] on floats, utils.py 1310: false as soon as one is NaN. *)
Definition fl_ltb (a b : fl) : bool :=
  match a, b with FNum x, FNum y => num_ltb x y | _, _ => false end.

(** utils.py 1311: [-x]. *)
Definition num_neg (n : num) : num :=
  match n with NInf => PInf | Fin z => Fin (- z) | PInf => NInf end.
(** [-x] on floats, utils.py 1311. *)
Definition fl_neg (a : fl) : fl :=
  match a with FNaN => FNaN | FNum n => FNum (num_neg n) end.

(** utils.py 1316-1317: [abs(x)]. *)
Definition num_abs (n : num) : num :=
  match n with NInf | PInf => PInf | Fin z => Fin (Z.abs z) end.
(** [abs(x)] on floats, utils.py 1316-1317. *)
Definition fl_abs (a : fl) : fl :=
  match a with FNaN => FNaN | FNum n => FNum (num_abs n) end.

(** Python [max(a, b)] and [min(a, b)]: the first one unless the second one beats it (utils.py 1319-1320). *)
Definition fl_max (a b : fl) : fl := if fl_ltb a b then b else a.
(** Python [min(a, b)], utils.py 1320. *)
Definition fl_min (a b : fl) : fl := if fl_ltb b a then b else a.

(** utils.py 1320: subtraction. *)
Definition fl_sub (a b : fl) : fl :=
  match a, b with
  | FNum (Fin x), FNum (Fin y) => FNum (Fin (x - y))
  | FNum PInf, FNum PInf | FNum NInf, FNum NInf => FNaN
  | FNum PInf, FNum _ | FNum _, FNum NInf => FNum PInf
  | FNum NInf, FNum _ | FNum _, FNum PInf => FNum NInf
  | _, _ => FNaN
  end.

(** The quotient of utils.py 1320, by a positive number: NaN, infinite or a fraction [p / q]. *)
Inductive quot : Type :=
| QNaN  : quot
| QInf  : bool -> quot
| QFrac : Z -> Z -> quot.

(** utils.py 1320: division by a positive number. *)
Definition fl_div (a b : fl) : quot :=
  match a, b with
  | FNum (Fin x), FNum (Fin y) => QFrac x y
  | FNum (Fin _), FNum _ => QFrac 0 1
  | FNum PInf, FNum (Fin _) => QInf true
  | FNum NInf, FNum (Fin _) => QInf false
  | _, _ => QNaN
  end.

(** utils.py 1314: the float 1e-10, in units of 2^-1074. *)
Definition small_not_zero : Z := 7737125245533627 * 2 ^ 988.

(** utils.py 1307-1322 [per_error], after the call on the negated arguments of 1310-1311 (which does
    not come back to 1311: both arguments are then positive). *)
Definition per_error_body (x1 x2 : fl) : quot :=
  match x1 with
  | FNum PInf => match x2 with FNum PInf => QFrac 0 1 | _ => QInf true end
  | _ =>
      let abs1 := fl_abs x1 in
      let abs2 := fl_abs x2 in
      if fl_ltb (FNum (Fin small_not_zero)) (fl_max abs1 abs2)
      then fl_div (fl_sub (fl_max x1 x2) (fl_min x1 x2)) (fl_max abs1 abs2)
      else QFrac 0 1
  end.

(** utils.py 1307-1322 [per_error] on floats. *)
Definition per_error (x1 x2 : fl) : quot :=
  if fl_ltb x1 (FNum (of_int 0)) && fl_ltb x2 (FNum (of_int 0))
  then per_error_body (fl_neg x1) (fl_neg x2) else per_error_body x1 x2.

(** utils.py 1325: [r < epsilon]. *)
Definition quot_ltb (r : quot) (eps : num) : bool :=
  match r, eps with
  | QFrac p q, Fin e => Z.ltb (p * one_units) (e * q)
  | QFrac _ _, PInf => true
  | QInf false, Fin _ | QInf false, PInf => true
  | _, _ => false
  end.

(** What [<] and [abs] make of a cell: bools are numbers; on strings, None and dates they raise
    (utils.py 1308-1317). *)
Definition to_fl (v : value) : option fl :=
  match v with
  | VNum n => Some (FNum n)
  | VNaN => Some FNaN
  | VBool b => Some (FNum (of_int (if b then 1 else 0)))
  | _ => None
  end.

(** utils.py 1324-1325 [nearly_same] under [safe_apply] (934-940): an exception counts as no. *)
Definition nearly_same (eps : num) (a b : value) : bool :=
  match to_fl a, to_fl b with
  | Some x, Some y => quot_ltb (per_error x y) eps
  | _, _ => false
  end.

(** ** _same_data *)

(** ticdatfactory.py 1307: NaN, None, or an empty string if so asked. *)
Definition counts_as_nan (empties : bool) (v : value) : bool :=
  is_null v || (empties && match v with VStr s => String.eqb s "" | _ => false end).

(** ticdatfactory.py 1311-1313 and 1319-1321: the two cells pass. *)
Definition cell_same (eps : num) (nans empties : bool) (a b : value) : bool :=
  negb (cell_neq a b) || (num_ltb (of_int 0) eps && nearly_same eps a b) ||
  (nans && (counts_as_nan empties a && counts_as_nan empties b)).

Section By.
  Variable same : value -> value -> bool.

  (** ticdatfactory.py 1314-1323: both rows have the table's data fields. *)
  Definition same_row_by (a b : row) : bool := forallb (fun ab => same (fst ab) (snd ab)) (combine a b).

  (** ticdatfactory.py 1333-1350 for one table. *)
  Definition same_table_by (a b : otable) : bool :=
    match a, b with
    | OKeyed l, OKeyed m =>
        same_keys (map fst l) (map fst m) &&
        forallb (fun kr => match dget pkey_eqb m (fst kr) with Some r => same_row_by (snd kr) r | None => false end) l
    | OListed l, OListed m =>
        Nat.eqb (List.length l) (List.length m) && forallb (fun r => existsb (fun r' => same_row_by r r') m) l
    | _, _ => false
    end.

  (** ticdatfactory.py 1333-1351 *)
  Definition same_data_by (sch : schema) (d e : obj) : bool :=
    forallb (fun tts => same_table_by (d (fst tts)) (e (fst tts))) sch.

  (** ticdatfactory.py 1314-1323 and 1345-1350 on the rows of a generic table: fields go by name
      (pandatfactory.py 1112-1118). *)
  Definition same_generic_row (cols : list colname) (r : list value) (cols' : list colname) (r' : list value) : bool :=
    forallb (fun c => match c with
                      | CName f => match cell_of cols r f, cell_of cols' r' f with
                                   | Some a, Some b => same a b
                                   | _, _ => false
                                   end
                      | CPos _ => false
                      end) cols.
  (** Each row of the first table has a counterpart, ticdatfactory.py 1345-1350. *)
  Definition same_generic (x y : frame) : bool :=
    forallb (fun r => existsb (fun r' => same_generic_row (fr_cols x) (snd r) (fr_cols y) (snd r')) (fr_rows y)) (fr_rows x).
End By.

(** ticdatfactory.py 1305-1351; None is the assertion of 1310. *)
Definition same_data_tol (eps : num) (nans empties : bool) (sch : schema) (d e : obj) : option bool :=
  if num_ltb eps (of_int 0) then None else Some (same_data_by (cell_same eps nans empties) sch d e).

(** pandatfactory.py 1116: equal sets of columns. *)
Definition same_columns (x y : frame) : bool :=
  forallb (fun c => existsb (col_eqb c) (fr_cols y)) (fr_cols x) &&
  forallb (fun c => existsb (col_eqb c) (fr_cols x)) (fr_cols y).

(** pandatfactory.py 1093-1109: the data tables of the copy; the generic tables become lists of rows
    and are compared in [same_generic]. *)
Definition pan_as_tic (sch : schema) (mode : string) (x : string -> frame) : option obj :=
  option_map fst (from_frames sch [] [] mode (map (fun tts => (fst tts, PFrame (x (fst tts)))) sch)).

(** pandatfactory.py 1110-1122 [_same_data]; None is an exception. *)
Definition pan_same_data (eps : num) (nans : bool) (sch : schema) (generics : list string) (mode : string)
  (x y : string -> frame) : option bool :=
  if negb (forallb (fun t => Nat.eqb (List.length (fr_rows (x t))) (List.length (fr_rows (y t)))) (map fst sch ++ generics))
  then Some false
  else if negb (forallb (fun t => same_columns (x t) (y t)) generics) then Some false
  else match pan_as_tic sch mode x, pan_as_tic sch mode y with
       | Some d, Some e =>
           option_map (fun b => b && forallb (fun t => same_generic (cell_same eps nans false) (x t) (y t)) generics)
             (same_data_tol eps nans false sch d e)
       | _, _ => None
       end.
