(** * The parameters table: ticdatfactory.py 1084-1112
    ([_parameter_table_post_read_adjustment]) and 1788-1803
    ([create_full_parameters_dict]). *)
From Coq Require Import ZArith Bool List String.
From Verif Require Import PyVal PyDict TypeDict Data FindTypes Factory InfIO.
Import ListNotations.
Local Open Scope string_scope.
Local Open Scope list_scope.

(** The table: parameter name -> its single data cell (ticdatfactory.py 1084-1112). *)
Definition ptable := list (value * value).

Section Params.
  Variable date_of : value -> option Z.
  Variable float_of : value -> option value.

  (** ticdatfactory.py 1097: [getattr(self.parameters.get(k, None), "type_dictionary", None)] *)
  Definition param_type (f : factory) (k : value) : option dtype :=
    match dget pyeq (f_params f) k with Some (td, _) => td | None => None end.

  (** ticdatfactory.py 1097-1111, one row.  [int(number_v)] of 1108-1109 is the same number. *)
  Definition param_cell (f : factory) (k v : value) : value :=
    let numeric := match to_float float_of v with Some w => w | None => v end in
    match param_type f k with
    | Some td =>
        if nullable td && value_eqb v (VStr "") && negb (valid_data (is_date date_of) td v) then VNone
        else if datetime td then match adjust date_of v with Some d => VDate d | None => v end
        else if number_allowed td then numeric else v
    | None => numeric
    end.

  (** ticdatfactory.py 1084-1112 *)
  Definition post_read (f : factory) (tb : ptable) : ptable :=
    if has_params f then map (fun kv => (fst kv, param_cell f (fst kv) (snd kv))) tb else tb.

  (** ticdatfactory.py 1800-1802 *)
  Definition param_default (p : value * (option dtype * value)) : value :=
    match adjust date_of (snd (snd p)), fst (snd p) with
    | Some d, Some td => if datetime td then VDate d else snd (snd p)
    | _, _ => snd (snd p)
    end.

  (** ticdatfactory.py 1788-1803; [None] is an exception: 1799, and [dict(x, **y)] raises when a
      key of [y] is not a string. *)
  Definition create_full (f : factory) (tb : ptable) : option (list (value * value)) :=
    if has_params f && forallb (fun kv => stringish (fst kv)) tb then
      Some (dupdate pyeq (map (fun p => (fst p, param_default p)) (f_params f)) tb)
    else None.
End Params.
