(** * deep_freeze, deep_copy and dict_overlay (utils.py 732-736, 1014-1048). *)
From Coq Require Import Bool List Arith.
From Verif Require Import PyVal PyDict InfIO.
Import ListNotations.

(** Nested Python objects.  [Fun n] is any callable.  DataFrames, factories,
    generators and other classes are not modelled (the arguments of utils.py 1014-1048). *)
Inductive obj : Type :=
| Scal (v : value)
| Fun (n : nat)
| Lst (l : list obj)
| Tup (l : list obj)
| PSet (l : list obj)
| FSet (l : list obj)
| Dct (l : list (obj * obj))
| FDct (l : list (obj * obj)).

(** [\[f(x) for x in l\]] where [f] may raise (the comprehensions of utils.py 1023-1048). *)
Definition mapM {A B} (f : A -> outcome B) : list A -> outcome (list B) :=
  fix go l := match l with
              | [] => Ret []
              | x :: l' => match f x, go l' with
                           | Ret y, Ret ys => Ret (y :: ys)
                           | _, _ => Raise
                           end
              end.

(** Option map, for the branches of utils.py 1023-1048. *)
Definition omap {A B} (f : A -> B) (o : outcome A) : outcome B :=
  match o with Ret x => Ret (f x) | Raise => Raise end.

Section Freeze.
  (** Python's [==] between hashable objects. *)
  Variable same : obj -> obj -> bool.

  (** utils.py 1014-1021.  Strings, scalars and callables have no [__contains__] or are
      stringish; dicts have keys and values; lists and tuples [__getitem__];
      the sets neither. *)
  Fixpoint deep_freeze (x : obj) : obj :=
    match x with
    | Scal v => Scal v
    | Fun n => Fun n
    | Dct l | FDct l => FDct (dict_of same (map (fun kv => match kv with (k, v) => (deep_freeze k, deep_freeze v) end) l))
    | Lst l | Tup l => Tup (map deep_freeze l)
    | PSet l | FSet l => FSet (set_of same (map deep_freeze l))
    end.

  (** utils.py 1023-1048.  Datetimes fall through to the closing [verify] (1048). *)
  Fixpoint deep_copy (x : obj) : outcome obj :=
    match x with
    | Scal (VDate d) => Raise
    | Scal v => Ret (Scal v)
    | Tup l => omap Tup (mapM deep_copy l)
    | FSet l => omap (fun l' => FSet (set_of same (set_of same l'))) (mapM deep_copy l)
    | PSet l => omap (fun l' => PSet (set_of same l')) (mapM deep_copy l)
    | Lst l => omap Lst (mapM deep_copy l)
    | Dct l | FDct l =>
        omap (fun l' => Dct (dict_of same l'))
             (mapM (fun kv => match kv with (k, v) =>
                       match deep_copy k, deep_copy v with
                       | Ret k', Ret v' => Ret (k', v')
                       | _, _ => Raise
                       end end) l)
    | Fun n => Ret (Fun n)
    end.
End Freeze.

(** utils.py 732-736 *)
Definition dict_overlay {K V} (eqb : K -> K -> bool) (d1 d2 : list (K * V)) : list (K * V) :=
  fold_left (fun rtn kv => dset eqb rtn (fst kv) (snd kv)) d2 d1.
