(** * Python dicts and sets as ordered lists, and loops with early return.

    A dict keeps insertion order: assignment to a present key replaces the
    value in place and keeps the stored key, assignment to an absent key
    appends.  A set is modelled as the list of its elements in insertion
    order; adding an element equal to a present one changes nothing. *)
From Coq Require Import Bool List.
Import ListNotations.

Section Dict.
  Context {K V : Type}.
  Variable eqb : K -> K -> bool.

  (** [d.get(k)] *)
  Fixpoint dget (d : list (K * V)) (k : K) : option V :=
    match d with
    | [] => None
    | (k', v) :: d' => if eqb k' k then Some v else dget d' k
    end.

  (** [k in d] *)
  Definition dmem (d : list (K * V)) (k : K) : bool :=
    match dget d k with Some _ => true | None => false end.

  (** [d[k] = v] *)
  Fixpoint dset (d : list (K * V)) (k : K) (v : V) : list (K * V) :=
    match d with
    | [] => [(k, v)]
    | (k', v') :: d' => if eqb k' k then (k', v) :: d' else (k', v') :: dset d' k v
    end.

  (** [d.pop(k, None)] / [del d[k]] (the latter raises when [k] is absent;
      callers check). *)
  Fixpoint ddel (d : list (K * V)) (k : K) : list (K * V) :=
    match d with
    | [] => []
    | (k', v') :: d' => if eqb k' k then d' else (k', v') :: ddel d' k
    end.

  (** [d.get(k, dflt)] *)
  Definition dget_or (d : list (K * V)) (k : K) (dflt : V) : V :=
    match dget d k with Some v => v | None => dflt end.

  (** [dict(d, **e)] *)
  Definition dupdate (d e : list (K * V)) : list (K * V) :=
    fold_left (fun acc kv => dset acc (fst kv) (snd kv)) e d.

  (** Building a dict from pairs, as in [{k: v for k, v in l}]. *)
  Definition dict_of (l : list (K * V)) : list (K * V) := dupdate [] l.
End Dict.

Section PSet.
  Context {A : Type}.
  Variable eqb : A -> A -> bool.

  (** [x in s] *)
  Definition smem (s : list A) (x : A) : bool := existsb (fun y => eqb y x) s.

  (** [s.add(x)] *)
  Definition sadd (s : list A) (x : A) : list A := if smem s x then s else s ++ [x].

  (** [set(l)] *)
  Definition set_of (l : list A) : list A := fold_left sadd l [].
End PSet.

(** [for x in l: ...] where the body may execute [return] (second component
    [true]). *)
Fixpoint for_each {A S} (body : A -> S -> S * bool) (l : list A) (s : S) : S * bool :=
  match l with
  | [] => (s, false)
  | x :: l' =>
      match body x s with
      | (s', true) => (s', true)
      | (s', false) => for_each body l' s'
      end
  end.
