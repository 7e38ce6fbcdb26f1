(** * The solver wrapper: model.py 23-244 (Model) and utils.py 1210-1303 (Progress).

    The three engines are trusted, and known only by what their documentation says of the calls made: a core
    model is a list of variables (kind and bounds), constraints and an objective; [solve] leaves a
    result.  A variable is its position in the core model; values are finite numbers in units of
    2^-1074; a user's constraint or objective is any function of the assignment.  Names, extra
    arguments of [optimize] and get_mip_results are not modelled. *)
From Coq Require Import ZArith Bool List String Arith.
From Verif Require Import PyVal PyDict.
Import ListNotations.
Local Open Scope string_scope.
Local Open Scope list_scope.

(** model.py 34 *)
Inductive engine : Type := Gurobi | Cplex | Xpress.

(** model.py 72 *)
Inductive vkind : Type := Continuous | Binary | Integral.
(** The [type] argument, model.py 72. *)
Definition kind_of (s : string) : option vkind :=
  if String.eqb s "continuous" then Some Continuous
  else if String.eqb s "binary" then Some Binary
  else if String.eqb s "integer" then Some Integral else None.

(** A variable of an engine, as made by model.py 84, 88-91, 98. *)
Record cvar : Type := mkV { v_kind : vkind; v_lb : num; v_ub : num }.
(** A value for each variable (the solution of model.py 215-226). *)
Definition assignment := nat -> Z.

(** A constraint of an engine: the user's (model.py 108-125), [var == rhs] (94, 105), or an indicator (137, 139-140). *)
Inductive ccon : Type :=
| CUser : (assignment -> bool) -> ccon
| CFix  : nat -> num -> ccon
| CInd  : nat -> bool -> (assignment -> bool) -> ccon.

(** The core model; the objective has its sense, true to maximize (model.py 142-160). *)
Record core : Type := mkC { c_vars : list cvar; c_cons : list ccon; c_obj : option ((assignment -> Z) * bool) }.

(** What an engine lets a variable be that was made by model.py 82-99. *)
Definition var_allows (v : cvar) (z : Z) : bool :=
  num_leb (v_lb v) (Fin z) && num_leb (Fin z) (v_ub v) &&
  match v_kind v with
  | Continuous => true
  | Integral => Z.eqb (Z.modulo z one_units) 0
  | Binary => Z.eqb z 0 || Z.eqb z one_units
  end.
(** What an engine makes of a constraint of model.py 94, 105, 117-140. *)
Definition con_allows (k : ccon) (a : assignment) : bool :=
  match k with
  | CUser c => c a
  | CFix i n => num_eqb (Fin (a i)) n
  | CInd i on c => negb (Z.eqb (a i) (if on then one_units else 0)) || c a
  end.
(** The solutions of a core model (model.py 63-140). *)
Definition feasible (c : core) (a : assignment) : Prop :=
  (forall i v, nth_error (c_vars c) i = Some v -> var_allows v (a i) = true) /\
  (forall k, In k (c_cons c) -> con_allows k a = true).

(** model.py 92, 103 *)
Definition fixed_rhs (lb ub : num) : option num :=
  if num_eqb ub (of_int 0) then Some ub else if num_leb (of_int 1) lb then Some lb else None.

(** model.py 79: [x in [0, 1]]. *)
Definition zero_one (n : num) : bool := num_eqb n (of_int 0) || num_eqb n (of_int 1).

(** model.py 72-79: the arguments as they are used afterwards; None is a failed verify. *)
Definition check_var (lb ub : value) (type : string) : option (vkind * num * num) :=
  match kind_of type, lb, ub with
  | Some k, VNum l, VNum u =>
      if num_leb l u && num_ltb l PInf && num_ltb NInf u then
        match k with
        | Binary => let u' := if num_eqb u PInf then of_int 1 else u in
                    if zero_one l && zero_one u' then Some (k, l, u') else None
        | _ => Some (k, l, u)
        end
      else None
  | _, _, _ => None
  end.

(** Adding to a core model: model.py 84, 88-91, 98-99 and 94, 105. *)
Definition core_var (c : core) (v : cvar) : core := mkC (c_vars c ++ [v]) (c_cons c) (c_obj c).
(** A constraint added, model.py 94, 105, 117-125. *)
Definition core_con (c : core) (k : ccon) : core := mkC (c_vars c) (c_cons c ++ [k]) (c_obj c).

(** model.py 63-106; None is an exception. *)
Definition add_var (e : engine) (c : core) (lb ub : value) (type : string) : option core :=
  match check_var lb ub type with
  | None => None
  | Some (k, l, u) =>
      let i := List.length (c_vars c) in
      let fix_it c' := match fixed_rhs l u with Some rhs => core_con c' (CFix i rhs) | None => c' end in
      match e, k with
      | Gurobi, _ => Some (core_var c (mkV k l u))
      | Cplex, Binary => Some (fix_it (core_var c (mkV Binary (of_int 0) (of_int 1))))
      | Cplex, _ => Some (core_var c (mkV k l u))
      | Xpress, Binary => Some (fix_it (core_var c (mkV k l u)))
      | Xpress, _ => Some (core_var c (mkV k l u))
      end
  end.

(** Calls that build a model: add_var, add_constraint, add_indicator_constraint, set_objective
    (model.py 63-160). *)
Inductive bop : Type :=
| BVar : value -> value -> string -> bop
| BCon : (assignment -> bool) -> bop
| BInd : nat -> value -> (assignment -> bool) -> bop
| BObj : (assignment -> Z) -> string -> bop.

(** model.py 63-160: the core model afterwards, and whether the call raised. *)
Definition bstep (e : engine) (c : core) (op : bop) : core * bool :=
  match op with
  | BVar lb ub type => match add_var e c lb ub type with Some c' => (c', false) | None => (c, true) end
  | BCon f => (core_con c (CUser f), false)
  | BInd i on f =>
      match e with
      | Cplex => (c, true)
      | _ => (core_con c (CInd i (truthy on) f), false)
      end
  | BObj f sense =>
      if String.eqb sense "maximize" then (mkC (c_vars c) (c_cons c) (Some (f, true)), false)
      else if String.eqb sense "minimize" then (mkC (c_vars c) (c_cons c) (Some (f, false)), false)
      else (c, true)
  end.

(** A sequence of calls from a new model (28-50). *)
Definition new_core : core := mkC [] [] None.
(** The calls in order (model.py 63-160): the core model and which ones raised. *)
Fixpoint brun (e : engine) (c : core) (ops : list bop) : core * list bool :=
  match ops with
  | [] => (c, [])
  | op :: ops' => let (c', r) := bstep e c op in let (c'', rs) := brun e c' ops' in (c'', r :: rs)
  end.

(** ** Solving: model.py 190-226 *)

(** What a call of the engine's solve ends in: solved, stopped early by a limit or an interruption, or anything else;
    and the values found, if any, by variable (model.py 199-213). *)
Inductive status : Type := SOptimal | SLimit | SFailed.
(** The result of a solve, model.py 199-213. *)
Record result : Type := mkR { r_status : status; r_values : option (list Z) }.

(** A [Model] object: the core model, [_var_index], [_xpress_solution_list], [_cplex_soln] and, for Gurobi, the
    values its variables have (model.py 28-50, 208). *)
Record session : Type := mkS {
  s_core : core;
  s_index : list (nat * nat);
  s_xsol : list Z;
  s_csol : option (list Z);
  s_gsol : option (list Z)
}.
(** A new Model, model.py 28-50. *)
Definition new_session : session := mkS new_core [] [] None None.

(** A history: calls of the Model (model.py 63-160), of its [core_model] (53-54), and [optimize] (190-214). *)
Inductive sop : Type :=
| SBuild : bop -> sop                 (** a call of the Model *)
| SCoreVar : cvar -> sop              (** a variable added to [core_model] directly *)
| SSolve : result -> sop.             (** [optimize()], ending in the result *)

(** model.py 100: the new variable gets the number of variables in [_var_index]. *)
Definition note_var (e : engine) (op : bop) (s : session) (raised : bool) : list (nat * nat) :=
  match e, op, raised with
  | Xpress, BVar _ _ _, false => s_index s ++ [(List.length (c_vars (s_core s)), List.length (s_index s))]
  | _, _, _ => s_index s
  end.

(** model.py 190-214: the answer of [optimize]. *)
Definition optimized (e : engine) (s : session) (r : result) : bool :=
  match e with
  | Gurobi => match r_status r with
              | SOptimal => true
              | SLimit => match r_values r with Some _ => true | None => match c_vars (s_core s) with [] => true | _ => false end end
              | SFailed => false
              end
  | Cplex => match r_values r with Some _ => true | None => false end
  | Xpress => match r_status r, r_values r with SOptimal, _ => true | SLimit, Some _ => true | _, _ => false end
  end.

(** model.py 190-214: what [optimize] remembers. *)
Definition remember (e : engine) (s : session) (r : result) : session :=
  match e with
  | Gurobi => mkS (s_core s) (s_index s) (s_xsol s) (s_csol s) (r_values r)
  | Cplex => mkS (s_core s) (s_index s) (s_xsol s) (if optimized e s r then r_values r else s_csol s) (s_gsol s)
  | Xpress => mkS (s_core s) (s_index s) (if optimized e s r then match r_values r with Some l => l | None => [] end else []) (s_csol s) (s_gsol s)
  end.

(** One call (model.py 63-214). *)
Definition sstep (e : engine) (s : session) (op : sop) : session :=
  match op with
  | SBuild b => let (c, raised) := bstep e (s_core s) b in mkS c (note_var e b s raised) (s_xsol s) (s_csol s) (s_gsol s)
  | SCoreVar v => mkS (core_var (s_core s) v) (s_index s) (s_xsol s) (s_csol s) (s_gsol s)
  | SSolve r => remember e s r
  end.
(** A history from a state (model.py 63-214). *)
Definition srun (e : engine) (s : session) (ops : list sop) : session := fold_left (sstep e) ops s.

(** model.py 215-226; None is an exception. *)
Definition get_solution_value (e : engine) (s : session) (var : nat) : option Z :=
  match e with
  | Gurobi => match s_gsol s with Some l => nth_error l var | None => None end
  | Cplex => match s_csol s with Some l => nth_error l var | None => None end
  | Xpress => match dget Nat.eqb (s_index s) var with Some i => nth_error (s_xsol s) i | None => None end
  end.

(** ** Parameters: model.py 162-188 *)

Definition params := list (string * value).

(** model.py 170-188: one keyword; None is a failed verify. *)
Definition set_parameter (e : engine) (p : params) (k : string) (v : value) : option params :=
  if String.eqb k "MIP_Gap" then Some (dset String.eqb p k v)
  else if String.eqb k "time_limit" then match e with Cplex => None | _ => Some (dset String.eqb p k v) end
  else None.

(** model.py 171-188: the parameters afterwards, and whether the call raised. *)
Fixpoint set_parameters (e : engine) (p : params) (kw : list (string * value)) : params * bool :=
  match kw with
  | [] => (p, false)
  | (k, v) :: kw' => match set_parameter e p k v with Some p' => set_parameters e p' kw' | None => (p, true) end
  end.

(** ** Progress: utils.py 1210-1303 *)

(** What reaches [mip_progress] as a bound: a cell, or the dict of utils.py 1296. *)
Inductive bound : Type := BCell : value -> bound | BDict : bound.

(** 1e-5, as the fraction of integers the float is (utils.py 1239). *)
Definition tol_num : Z := 5902958103587057.
(** The denominator of 1e-5, utils.py 1239. *)
Definition tol_den : Z := 2 ^ 69.

(** utils.py 1239: [lower - abs(lower) * .00001 <= upper], computed exactly. *)
Definition bounds_ok (lower upper : num) : bool :=
  match lower, upper with
  | Fin l, Fin u => Z.leb (l * tol_den - Z.abs l * tol_num) (u * tol_den)
  | Fin _, PInf | NInf, _ => true
  | Fin _, NInf => false
  | PInf, _ => false
  end.

(** utils.py 1228-1244 [mip_progress]: the two bounds that are shown, None when a verify fails.  NaN compares
    false. *)
Definition mip_progress (lower upper : bound) : option (num * num) :=
  match lower, upper with
  | BCell (VNum l), BCell (VNum u) => if bounds_ok l u then Some (l, u) else None
  | _, _ => None
  end.

(** utils.py 1245-1264 (Gurobi), 1265-1282 (Xpress), 1283-1303 (CPLEX): the call-back on the
    best objective known to the engine and the best bound.  Gurobi and Xpress use a number for "none yet"; CPLEX
    None, for which 1297 hands on the dict [no_feasible_yet]. *)
Definition call_back (e : engine) (maximize : bool) (objective : option num) (none_yet : num) (best : num) : option (num * num) :=
  let ub := match objective, e with
            | Some o, _ => BCell (VNum o)
            | None, Cplex => BDict
            | None, _ => BCell (VNum none_yet)
            end in
  let lb := BCell (VNum best) in
  if maximize then mip_progress ub lb else mip_progress lb ub.
