(** * Foreign key graphs: circle detection and table orders.

    utils.py 1330-1342, pgtd.py 101-118, sqlitetd.py 240-249. *)
From Coq Require Import Bool List String Arith.
From Verif Require Import PyVal PyDict Data FK.
Import ListNotations.
Local Open Scope list_scope.

(** [fks.get(t, ())], reduced to the foreign tables (utils.py 1331-1333,
    pgtd.py 101-105).  The source iterates over a set; any order of [fks] is
    covered because the theorems quantify over the list. *)
Definition parents (fks : list fk) (t : string) : list string :=
  map fk_foreign (filter (fun f => String.eqb (fk_native f) t) fks).

(** A loop over tables that threads a list, [None] being exhausted fuel (the [for] loops of utils.py 1339, pgtd.py 113, sqlitetd.py 245). *)
Definition loop_opt {A B} (f : A -> B -> option B) (l : list A) (b : B) : option B :=
  fold_left (fun acc x => match acc with Some b => f x b | None => None end) l (Some b).

(** utils.py 1335-1340 [process_table].  The result is [rtn == [True]]; the
    loop at 1339 visits every parent, so a hit anywhere counts. *)
Fixpoint circle_from (fuel : nat) (fks : list fk) (native : string) (seen : list string) (t : string)
  : option bool :=
  match fuel with
  | 0 => None
  | S n =>
      if String.eqb t native then Some true
      else if mem_str t seen then Some false
      else loop_opt (fun u hit => option_map (orb hit) (circle_from n fks native (seen ++ [t]) u))
             (parents fks t) false
  end.

(** utils.py 1330-1342 [does_new_fk_complete_circle]. *)
Definition completes_circle (fuel : nat) (fks : list fk) (native foreign : string) : option bool :=
  circle_from fuel fks native [] foreign.

(** pgtd.py 110-115 [process_table]; [rtn] is threaded. *)
Fixpoint pg_process (fuel : nat) (fks : list fk) (seen : list string) (t : string) (rtn : list string)
  : option (list string) :=
  match fuel with
  | 0 => None
  | S n =>
      if mem_str t (rtn ++ seen) then Some rtn
      else option_map (fun r => r ++ [t])
             (loop_opt (fun u r => pg_process n fks (seen ++ [t]) u r) (parents fks t) rtn)
  end.

(** pgtd.py 107-118. *)
Definition pg_order (fuel : nat) (fks : list fk) (tables : list string) : option (list string) :=
  loop_opt (fun t r => pg_process fuel fks [] t r) tables [].

(** sqlitetd.py 243-247 [processTable]: no guard. *)
Fixpoint sq_process (fuel : nat) (fks : list fk) (t : string) (rtn : list string)
  : option (list string) :=
  match fuel with
  | 0 => None
  | S n =>
      if mem_str t rtn then Some rtn
      else option_map (fun r => r ++ [t])
             (loop_opt (fun u r => sq_process n fks u r) (parents fks t) rtn)
  end.

(** sqlitetd.py 240-249. *)
Definition sq_order (fuel : nat) (fks : list fk) (tables : list string) : option (list string) :=
  loop_opt (fun t r => sq_process fuel fks t r) tables [].
