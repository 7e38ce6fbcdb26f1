(** * Smaller tools: find_case_space_duplicates (utils.py 782-795), set_ampl_data (ticdatfactory.py 1583-1606, pandatfactory.py 1648-1672),
    create_full_parameters_dict of a PanDatFactory (pandatfactory.py 1495-1513). *)
From Coq Require Import ZArith Bool List String Ascii Arith.
From Verif Require Import PyVal PyDict PyStr TypeDict Data FindTypes FK Obj Factory InfIO Params Names Utils Json Frames AmplData.
Import ListNotations.
Local Open Scope string_scope.
Local Open Scope list_scope.

(** ** find_case_space_duplicates *)

(** utils.py 792: [k.lower().replace(" ", "_")] *)
Definition plain_name (s : string) : string := smap (fun c => if Ascii.eqb c " " then "_"%char else c) (lower s).

(** utils.py 782-795.  The entry of a generic table in the schema is the text ["*"], which has no item 1. *)
Definition find_case_space_duplicates (f : factory) : outcome (list (string * list string)) :=
  bindO (mapO (fun td => match snd td with Generic => Raise | Fields ts => Ret (fst td, tfields ts) end) (f_decl f)) (fun l =>
    Ret (filter (fun tf => negb (Nat.eqb (List.length (set_of String.eqb (snd tf))) (List.length (set_of String.eqb (map plain_name (set_of String.eqb (snd tf))))))) l)).

(** ** set_ampl_data *)

(** What AMPL has been handed, the last call first: the DataFrame and the name of the set, if one was given
    (ticdatfactory.py 1603, pandatfactory.py 1669). *)
Definition handed := list (aframe * option string).

(** ticdatfactory.py 1601-1606, pandatfactory.py 1667-1672: the loop; [takes]: whether [setData] returns. *)
Fixpoint hand_over (takes : handed -> aframe -> option string -> bool) (sets : list (string * string)) (tables : list (string * aframe)) (h : handed) : bool * handed :=
  match tables with
  | [] => (true, h)
  | (t, a) :: tables' =>
      let s := dget String.eqb sets t in
      if takes h a s then hand_over takes sets tables' ((a, s) :: h) else (false, h)
  end.

(** ticdatfactory.py 1583-1606, pandatfactory.py 1648-1672.  [dat]: the attributes of the object that do not begin with an underscore;
    [order]: the order in which the set of tables is visited.  The result: whether the call returns, and what AMPL has. *)
Definition set_ampl_data (takes : handed -> aframe -> option string -> bool) (f : factory) (dat : list (string * aframe)) (sets : list (string * string))
    (order : list string) (h : handed) : bool * handed :=
  if forallb (fun ta => mem_str (fst ta) (map fst (f_decl f))) dat && forallb (fun ks => dmem String.eqb dat (fst ks)) sets then
    hand_over takes sets (flat_map (fun t => match dget String.eqb dat t with Some a => [(t, a)] | None => [] end) order) h
  else (false, h).

(** ** create_full_parameters_dict of a PanDatFactory *)

(** pandatfactory.py 1512-1513: the two columns by name; the last row for a name counts. *)
Definition pan_parameters (fr : frame) (name data : string) : option ptable :=
  map_opt (fun r => match cell_of (fr_cols fr) (snd r) name, cell_of (fr_cols fr) (snd r) data with
                    | Some k, Some v => Some (k, v)
                    | _, _ => None
                    end) (fr_rows fr).
(** pandatfactory.py 1495-1513 for an object that passed good_pan_dat_object. *)
Definition pan_create_full (date_of : value -> option Z) (f : factory) (fr : frame) : option (list (value * value)) :=
  match dget String.eqb (f_decl f) "parameters" with
  | Some (Fields (mkT [name] [data])) =>
      match pan_parameters fr name data with
      | Some rows => create_full date_of f (dict_of pyeq rows)
      | None => None
      end
  | _ => None
  end.
