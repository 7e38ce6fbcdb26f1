(** * Data types: [TypeDictionary] (ticdat/utils.py 266-321). *)
From Coq Require Import ZArith Bool List String.
From Verif Require Import PyVal.
Import ListNotations.

(** [strings_allowed] once stored: ['*'] or a tuple of strings (utils.py 266-268). *)
Inductive strs : Type :=
| SStar : strs
| SList : list string -> strs.

(** utils.py 266-268, the namedtuple.  [dmin]/[dmax] are numbers because
    [safe_creator] verifies it (or stores the constants 0 and inf). *)
Record dtype : Type := mkDtype {
  number_allowed : bool;
  inclusive_min  : bool;
  inclusive_max  : bool;
  dmin : num;
  dmax : num;
  must_be_int : bool;
  strings_allowed : strs;
  nullable : bool;
  datetime : bool
}.

(** The arguments of [set_data_type] / [safe_creator] (ticdatfactory.py 192-194,
    utils.py 299-300).  Flags are used only through their truth value, so they
    are booleans here; [min]/[max] may be any value; the third constructor of
    [strs_arg] stands for every [strings_allowed] argument that is neither
    ['*'] nor a container of strings. *)
Inductive strs_arg : Type :=
| AStar : strs_arg
| AList : list string -> strs_arg
| ABad  : strs_arg.

(** The arguments of [set_data_type], ticdatfactory.py 192-194. *)
Record dtargs : Type := mkArgs {
  a_number : bool;
  a_incl_min : bool;
  a_incl_max : bool;
  a_min : value;
  a_max : value;
  a_int : bool;
  a_strs : strs_arg;
  a_nullable : bool;
  a_datetime : bool
}.

(** Python [a >= b] for numbers (False when either is NaN) (utils.py 305-321). *)
Definition py_ge (a b : value) : bool :=
  match a, b with
  | VNum x, VNum y => num_leb y x
  | _, _ => false
  end.

(** utils.py 298-321 [safe_creator]; [None] is a raised TicDatError.  The
    check that dateutil or pandas is installed is assumed to succeed. *)
Definition safe_creator (a : dtargs) : option dtype :=
  if a_datetime a then
    Some (mkDtype false true true (of_int 0) PInf false (SList []) (a_nullable a) true)
  else
    match (match a_strs a with
           | AStar => Some SStar
           | AList l => Some (SList l)
           | ABad => None
           end) with
    | None => None
    | Some ss =>
        if a_number a then
          if numericish (a_max a) && numericish (a_min a) && py_ge (a_max a) (a_min a) then
            match a_min a, a_max a with
            | VNum mn, VNum mx =>
                Some (mkDtype true (a_incl_min a) (a_incl_max a) mn mx (a_int a) ss (a_nullable a) false)
            | _, _ => None
            end
          else None
        else
          Some (mkDtype false true true (of_int 0) PInf false ss (a_nullable a) false)
    end.

(** Unpacking a stored type as arguments: [set_data_type(t, f, *dt)]
    (ticdatfactory.py 135, utils.py 148). *)
Definition args_of (d : dtype) : dtargs :=
  mkArgs (number_allowed d) (inclusive_min d) (inclusive_max d)
         (VNum (dmin d)) (VNum (dmax d)) (must_be_int d)
         (match strings_allowed d with SStar => AStar | SList l => AList l end)
         (nullable d) (datetime d).

Section Valid.
  (** [parses v]: [dateutil_adjuster(v)] is not None (utils.py 231-256), for a
      non-null [v] that is not a datetime.  External (pandas/dateutil). *)
  Variable parses : value -> bool.

  (** utils.py 269-297 [valid_data]. *)
  Definition valid_data (d : dtype) (v : value) : bool :=
    if is_null v then nullable d
    else if datetime d then
      match v with
      | VDate _ => true
      | _ => parses v
      end
    else
      match v with
      | VNum n =>
          if negb (number_allowed d) then false
          else if num_ltb n (dmin d) || num_ltb (dmax d) n then false
          else if negb (inclusive_min d) && num_eqb n (dmin d) then false
          else if negb (inclusive_max d) && num_eqb n (dmax d) then false
          else if must_be_int d
                  && negb (match py_int n with Some m => num_eqb m n | None => false end)
                  && negb (num_eqb n (dmax d) && num_eqb (dmax d) PInf && inclusive_max d)
               then false
          else true
      | VStr s =>
          match strings_allowed d with
          | SStar => true
          | SList l => existsb (String.eqb s) l
          end
      | _ => false
      end.
End Valid.

(** The temporary type given to primary key fields without a type
    (ticdatfactory.py 1880-1882): everything but null. *)
Definition nonnull_args : dtargs :=
  mkArgs true true true (VNum NInf) (VNum PInf) false AStar false false.
