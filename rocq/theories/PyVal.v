(** * Python values as seen by ticdat: numbers, cells, equality.

    Shared base of the model.  Simplifications (also in DESIGN.md, section 2):
    a finite Python number is [z * 2^-1074], so every int and every finite
    float is represented exactly; strings are lists of 8-bit code points;
    datetimes are opaque stamps; NaN is a single object. *)
From Coq Require Import ZArith Bool List String Ascii Lia.
Import ListNotations.
Local Open Scope Z_scope.

(** ** Numbers *)

(** A non-NaN Python number.  [Fin z] stands for [z * 2^-1074]. *)
Inductive num : Type :=
| NInf : num
| Fin  : Z -> num
| PInf : num.

(** [2^1074]: the representation of the integer 1. *)
Definition one_units : Z := 2 ^ 1074.

(** The Python int [k]. *)
Definition of_int (k : Z) : num := Fin (k * one_units).

Definition num_eqb (a b : num) : bool :=
  match a, b with
  | NInf, NInf | PInf, PInf => true
  | Fin x, Fin y => Z.eqb x y
  | _, _ => false
  end.

(** Python [a < b] on numbers. *)
Definition num_ltb (a b : num) : bool :=
  match a, b with
  | NInf, NInf => false
  | NInf, _ => true
  | _, NInf => false
  | PInf, _ => false
  | _, PInf => true
  | Fin x, Fin y => Z.ltb x y
  end.

Definition num_leb (a b : num) : bool := negb (num_ltb b a).

(** Python [safe_apply(int)(data)] (utils.py: [safe_apply] turns an exception
    into None): [int] truncates toward zero, and raises on infinities. *)
Definition py_int (a : num) : option num :=
  match a with
  | Fin z => Some (Fin (Z.quot z one_units * one_units))
  | _ => None
  end.

(** ** Cells *)

Inductive value : Type :=
| VNone : value
| VNaN  : value
| VBool : bool -> value
| VNum  : num -> value
| VStr  : string -> value
| VDate : Z -> value.

(** Literal equality of representations. *)
Definition value_eqb (a b : value) : bool :=
  match a, b with
  | VNone, VNone | VNaN, VNaN => true
  | VBool x, VBool y => Bool.eqb x y
  | VNum x, VNum y => num_eqb x y
  | VStr x, VStr y => String.eqb x y
  | VDate x, VDate y => Z.eqb x y
  | _, _ => false
  end.

(** Python's [==]/[hash] identify [True] with [1] and [False] with [0]. *)
Definition canon (v : value) : value :=
  match v with
  | VBool true => VNum (of_int 1)
  | VBool false => VNum (of_int 0)
  | _ => v
  end.

(** Python [a == b] as used by dict look-up ("identical or equal"). *)
Definition pyeq (a b : value) : bool := value_eqb (canon a) (canon b).

(** Python [is None] or [pandas.isnull] (pandas is assumed installed). *)
Definition is_null (v : value) : bool :=
  match v with VNone | VNaN => true | _ => false end.

(** utils.py [numericish]: a [Number] that is not a bool.  (NaN is a Number.) *)
Definition numericish (v : value) : bool :=
  match v with VNum _ | VNaN => true | _ => false end.

(** utils.py [stringish]. *)
Definition stringish (v : value) : bool :=
  match v with VStr _ => true | _ => false end.

(** Python truth value. *)
Definition truthy (v : value) : bool :=
  match v with
  | VNone => false
  | VNaN => true
  | VBool b => b
  | VNum n => negb (num_eqb n (of_int 0))
  | VStr s => negb (String.eqb s EmptyString)
  | VDate _ => true
  end.

(** ** Keys: lists of cells *)

Definition key := list value.

Fixpoint list_eqb {A} (eqb : A -> A -> bool) (a b : list A) : bool :=
  match a, b with
  | [], [] => true
  | x :: a', y :: b' => eqb x y && list_eqb eqb a' b'
  | _, _ => false
  end.

(** Python tuple equality (element-wise "identical or equal"). *)
Definition key_pyeq (a b : key) : bool := list_eqb pyeq a b.
