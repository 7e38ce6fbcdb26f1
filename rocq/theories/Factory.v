(** * TicDatFactory: the schema state machine.

    ticdatfactory.py 69-156 (schema, create_from_full_schema), 171-582 (the
    mutators), 593-609, 635-700 (constructor), 938-1024 (flags), 1352-1402
    (clone); utils.py 77-229. *)
From Coq Require Import ZArith Bool List String Ascii Arith.
From Verif Require Import PyVal PyDict PyStr TypeDict Data FindTypes FK.
Import ListNotations.
Local Open Scope string_scope.
Local Open Scope list_scope.

(** One keyword argument of the constructor: ['*'] or two lists of fields (ticdatfactory.py 635-671). *)
Inductive tdecl : Type :=
| Generic : tdecl
| Fields  : tschema -> tdecl.

(** [RowPredicateInfo]; functions are opaque (numbers) (ticdatfactory.py 317-319). *)
Record rpred : Type := mkPred { p_fn : nat; p_maker : option nat; p_resp : string }.

(** The factory.  [f_defaults], [f_types]: table -> field -> entry.
    [f_tips]: the keys [t] and [(t, f)] of [_tooltips] are [(t, "")] and
    [(t, f)]; utils.py 82 uses the former exactly when the field is empty.
    [f_fks]: the flattened dict of sets [_foreign_keys].  Parameter and
    predicate names are arbitrary Python values. *)
Record factory : Type := mkF {
  f_decl : list (string * tdecl);
  f_defaults : defaults;
  f_types : types;
  f_preds : list (string * list (value * rpred));
  f_params : list (value * (option dtype * value));
  f_tips : list ((string * string) * string);
  f_gens : list string;
  f_fks : list fk;
  f_links : bool;
  f_flag : value;
  f_xlsx : value;
  f_dup : value;
  f_auto : value;
  f_used : bool
}.

(** Assignment of one attribute: [_default_values], ticdatfactory.py 400-442. *)
Definition with_defaults f x := mkF (f_decl f) x (f_types f) (f_preds f) (f_params f) (f_tips f)
  (f_gens f) (f_fks f) (f_links f) (f_flag f) (f_xlsx f) (f_dup f) (f_auto f) (f_used f).
(** Assignment of one attribute: [_data_types], ticdatfactory.py 192-261. *)
Definition with_types f x := mkF (f_decl f) (f_defaults f) x (f_preds f) (f_params f) (f_tips f)
  (f_gens f) (f_fks f) (f_links f) (f_flag f) (f_xlsx f) (f_dup f) (f_auto f) (f_used f).
(** Assignment of one attribute: [_data_row_predicates], ticdatfactory.py 263-319. *)
Definition with_preds f x := mkF (f_decl f) (f_defaults f) (f_types f) x (f_params f) (f_tips f)
  (f_gens f) (f_fks f) (f_links f) (f_flag f) (f_xlsx f) (f_dup f) (f_auto f) (f_used f).
(** Assignment of one attribute: [_parameters], ticdatfactory.py 334-398. *)
Definition with_params f x := mkF (f_decl f) (f_defaults f) (f_types f) (f_preds f) x (f_tips f)
  (f_gens f) (f_fks f) (f_links f) (f_flag f) (f_xlsx f) (f_dup f) (f_auto f) (f_used f).
(** Assignment of one attribute: [_tooltips], utils.py 77-86. *)
Definition with_tips f x := mkF (f_decl f) (f_defaults f) (f_types f) (f_preds f) (f_params f) x
  (f_gens f) (f_fks f) (f_links f) (f_flag f) (f_xlsx f) (f_dup f) (f_auto f) (f_used f).
(** Assignment of one attribute: [_generator_tables], ticdatfactory.py 443-463. *)
Definition with_gens f x := mkF (f_decl f) (f_defaults f) (f_types f) (f_preds f) (f_params f) (f_tips f)
  x (f_fks f) (f_links f) (f_flag f) (f_xlsx f) (f_dup f) (f_auto f) (f_used f).
(** Assignment of one attribute: [_foreign_keys], ticdatfactory.py 464-479, 541-582. *)
Definition with_fks f x := mkF (f_decl f) (f_defaults f) (f_types f) (f_preds f) (f_params f) (f_tips f)
  (f_gens f) x (f_links f) (f_flag f) (f_xlsx f) (f_dup f) (f_auto f) (f_used f).
(** Assignment of one attribute: [_foreign_key_links_enabled], ticdatfactory.py 593-609. *)
Definition with_links f x := mkF (f_decl f) (f_defaults f) (f_types f) (f_preds f) (f_params f) (f_tips f)
  (f_gens f) (f_fks f) x (f_flag f) (f_xlsx f) (f_dup f) (f_auto f) (f_used f).
(** Assignment of the flags of ticdatfactory.py 938-1024. *)
Definition with_flags f a b c d := mkF (f_decl f) (f_defaults f) (f_types f) (f_preds f) (f_params f) (f_tips f)
  (f_gens f) (f_fks f) (f_links f) a b c d (f_used f).
(** [_trigger_has_been_used], ticdatfactory.py 593-609. *)
Definition with_used f x := mkF (f_decl f) (f_defaults f) (f_types f) (f_preds f) (f_params f) (f_tips f)
  (f_gens f) (f_fks f) (f_links f) (f_flag f) (f_xlsx f) (f_dup f) (f_auto f) x.

(** ** Schema look-ups *)

(** [table in self.all_tables] (ticdatfactory.py 672-674). *)
Definition is_table (f : factory) (t : string) : bool := dmem String.eqb (f_decl f) t.
(** [table in self.generic_tables] (ticdatfactory.py 672-674). *)
Definition is_generic (f : factory) (t : string) : bool :=
  match dget String.eqb (f_decl f) t with Some Generic => true | _ => false end.
(** [primary_key_fields[t]] and [data_fields[t]]; [None] is the KeyError for
    generic tables and unknown names (ticdatfactory.py 675-677). *)
Definition table_of (f : factory) (t : string) : option tschema :=
  match dget String.eqb (f_decl f) t with Some (Fields ts) => Some ts | _ => None end.
(** [field in self.data_fields[t] + self.primary_key_fields[t]]; a KeyError is
    a failed check as well (both raise) (ticdatfactory.py 228-232). *)
Definition has_field (f : factory) (t x : string) : bool :=
  match table_of f t with Some ts => mem_str x (tdf ts ++ tpk ts) | None => false end.
(** [field in self.data_fields[t]], ticdatfactory.py 400-417. *)
Definition has_data_field (f : factory) (t x : string) : bool :=
  match table_of f t with Some ts => mem_str x (tdf ts) | None => false end.

(** The tables that have fields, as a schema (ticdatfactory.py 675-677). *)
Definition plain_schema (f : factory) : schema :=
  flat_map (fun td => match snd td with Fields ts => [(fst td, ts)] | Generic => [] end) (f_decl f).

(** ** Constructor: ticdatfactory.py 653-671 *)

Definition distinct_b (l : list string) : bool :=
  Nat.eqb (List.length (set_of String.eqb l)) (List.length l).

(** ticdatfactory.py 661-671, one table. *)
Definition decl_table_ok (d : tdecl) : bool :=
  match d with
  | Generic => true
  | Fields ts =>
      negb (Nat.eqb (List.length (tpk ts ++ tdf ts)) 0) &&
      distinct_b (tpk ts ++ tdf ts) && distinct_b (map lower (tpk ts ++ tdf ts))
  end.

(** ticdatfactory.py 653-671 *)
Definition decl_ok (l : list (string * tdecl)) : bool :=
  forallb (fun td => negb (starts_with_char "_" (fst td))) l &&
  forallb (fun td => negb (has_char " " (fst td))) l &&
  distinct_b (map (fun td => lower (fst td)) l) &&
  forallb (fun td => decl_table_ok (snd td)) l.

(** ticdatfactory.py 678-681: every data field starts with default 0. *)
Definition zero_defaults (l : list (string * tdecl)) : defaults :=
  fold_left (fun acc td =>
    match snd td with
    | Generic => acc
    | Fields ts => fold_left (fun acc x => dset2 acc (fst td) x (VNum (of_int 0))) (tdf ts) acc
    end) l [].

(** ticdatfactory.py 635-700, 924-927 (initial flags). *)
Definition init (l : list (string * tdecl)) : option factory :=
  if decl_ok l then
    Some (mkF l (zero_defaults l) [] [] [] [] [] [] false (VStr "N/A") (VStr "prune") (VStr "assert")
            (VBool true) false)
  else None.

(** ** Mutators *)

(** utils.py 258-259; [v in [True, False]] also holds for 0 and 1. *)
Definition acceptable_default (v : value) : bool :=
  numericish v || match v with VStr _ | VBool _ | VNone => true | _ => false end.

(** The argument [mappings] of ticdatfactory.py 541-582: a pair, or a list of pairs. *)
Inductive fkarg : Type :=
| Simple   : string -> string -> fkarg
| Compound : list (string * string) -> fkarg.

(** The calls that change a factory: ticdatfactory.py 192-582, 938-1024, utils.py 77-86. *)
Inductive op : Type :=
| OSetType : string -> string -> dtargs -> op
| OClearType : string -> string -> op
| OPred : string -> option rpred -> value -> op         (** a name of [VNone] is an omitted name *)
| OAddParam : value -> value -> dtargs -> bool -> op    (** name, default, type, enforce_type_rules *)
| ORemParam : value -> op
| OSetDefault : string -> string -> value -> op
| OSetDefaults : list (string * list (string * value)) -> op
| OSetGens : list string -> op
| OClearFks : option string -> op
| OAddFk : string -> string -> fkarg -> op
| OImplied : nat -> op                                  (** fuel for the closure loop *)
| OLinks : op
| OTip : string -> string -> string -> op
| OFlag : value -> op
| OXlsx : value -> op
| ODup : value -> op
| OAuto : value -> op
| OUse : op.                                            (** construct a TicDat object *)

Section Step.
  Variable parses : value -> bool.

  (** ticdatfactory.py 192-241 [set_data_type]. *)
  Definition set_data_type (f : factory) (t x : string) (a : dtargs) : option factory :=
    if negb (f_used f) && is_table f t && negb (is_generic f t) && has_field f t x &&
       negb (String.eqb t "parameters" && has_data_field f t x && negb (Nat.eqb (List.length (f_params f)) 0))
    then match safe_creator a with
         | Some dt => Some (with_types f (dset2 (f_types f) t x dt))
         | None => None
         end
    else None.

  (** ticdatfactory.py 243-261 [clear_data_type]. *)
  Definition clear_data_type (f : factory) (t x : string) : option factory :=
    if negb (dmem String.eqb (dget_or String.eqb (f_types f) t []) x) then Some f
    else if f_used f then None
    else Some (with_types f
           (dset String.eqb (f_types f) t (ddel String.eqb (dget_or String.eqb (f_types f) t []) x))).

  (** ticdatfactory.py 317: [next(i for i in count() if i not in d)]; the search range suffices
      (theorem C23). *)
  Definition fresh_name {V} (d : list (value * V)) : value :=
    match find (fun i => negb (dmem pyeq d (VNum (of_int (Z.of_nat i))))) (seq 0 (S (List.length d))) with
    | Some i => VNum (of_int (Z.of_nat i))
    | None => VNone
    end.

  (** ticdatfactory.py 263-319 [add_data_row_predicate]. *)
  Definition add_pred (f : factory) (t : string) (p : option rpred) (name : value) : option factory :=
    if negb (f_used f) && is_table f t && negb (is_generic f t) && negb (mem_str t (f_gens f)) then
      match p with
      | None =>
          match dget String.eqb (f_preds f) t with
          | Some d => Some (with_preds f (dset String.eqb (f_preds f) t (ddel pyeq d name)))
          | None => Some f
          end
      | Some p =>
          if mem_str (p_resp p) ["Boolean"; "Error Message"] then
            let d := dget_or String.eqb (f_preds f) t [] in
            let nm := match name with VNone => fresh_name d | _ => name end in
            Some (with_preds f (dset String.eqb (f_preds f) t (dset pyeq d nm p)))
          else None
      end
    else None.

  (** ticdatfactory.py 372-378: the parameters table has one key field and one data field, the
      latter untyped. *)
  Definition params_table_ok (f : factory) : bool :=
    match table_of f "parameters" with
    | Some (mkT [_] [x]) => negb (dmem String.eqb (dget_or String.eqb (f_types f) "parameters" []) x)
    | _ => false
    end.

  (** ticdatfactory.py 334-387 [add_parameter]. *)
  Definition add_parameter (f : factory) (name dflt : value) (a : dtargs) (enforce : bool) : option factory :=
    if is_table f "parameters" && params_table_ok f && negb (f_used f) then
      if enforce then
        match safe_creator a with
        | Some dt => if valid_data parses dt dflt
                     then Some (with_params f (dset pyeq (f_params f) name (Some dt, dflt)))
                     else None
        | None => None
        end
      else Some (with_params f (dset pyeq (f_params f) name (None, dflt)))
    else None.

  (** ticdatfactory.py 389-398 [remove_parameter]: no check of [_has_been_used]. *)
  Definition remove_parameter (f : factory) (name : value) : option factory :=
    if dmem pyeq (f_params f) name then Some (with_params f (ddel pyeq (f_params f) name)) else None.

  (** ticdatfactory.py 400-417 [set_default_value]. *)
  Definition set_default (f : factory) (t x : string) (v : value) : option factory :=
    if negb (f_used f) && is_table f t && has_field f t x && acceptable_default v
    then Some (with_defaults f (dset2 (f_defaults f) t x v)) else None.

  (** ticdatfactory.py 436-441: the body of the loop of [set_default_values]. *)
  Definition set_table_defaults (f : factory) (tv : string * list (string * value)) : option factory :=
    if is_table f (fst tv) && forallb (fun xv => has_field f (fst tv) (fst xv)) (snd tv)
       && match table_of f (fst tv) with Some _ => true | None => false end
       && forallb (fun xv => acceptable_default (snd xv)) (snd tv)
    then Some (with_defaults f (dset String.eqb (f_defaults f) (fst tv)
                 (dupdate String.eqb (dget_or String.eqb (f_defaults f) (fst tv) []) (snd tv))))
    else None.

  (** ticdatfactory.py 419-442 [set_default_values]: the tables before the offending one have
      been updated when it raises. *)
  Definition set_defaults (f : factory) (l : list (string * list (string * value))) : factory * bool :=
    if f_used f then (f, true)
    else for_each (fun tv g => match set_table_defaults g tv with
                               | Some g' => (g', false)
                               | None => (g, true)
                               end) l f.

  (** ticdatfactory.py 443-463 [set_generator_tables]. *)
  Definition set_gens (f : factory) (g : list string) : option factory :=
    if negb (f_used f) && forallb (is_table f) g && forallb (fun t => negb (is_generic f t)) g &&
       forallb (fun t => match table_of f t with Some ts => Nat.eqb (List.length (tpk ts)) 0 | None => true end) g
    then Some (with_gens f g) else None.

  (** ticdatfactory.py 464-479 [clear_foreign_keys]; [native_table or nt] treats "" as None. *)
  Definition clear_fks (f : factory) (t : option string) : option factory :=
    if f_used f then None
    else match t with
         | None => Some (with_fks f [])
         | Some t =>
             if is_table f t then
               Some (with_fks f (filter (fun k => negb (String.eqb t "" || String.eqb (fk_native k) t)) (f_fks f)))
             else None
         end.

  (** ticdatfactory.py 541-582 [add_foreign_key]. *)
  Definition mapping_of (m : fkarg) : option (list (string * string)) :=
    match m with
    | Simple n x => Some [(n, x)]
    | Compound [] => None
    | Compound l => Some (dict_of String.eqb l)
    end.

  (** ticdatfactory.py 541-582 [add_foreign_key]. *)
  Definition add_fk (f : factory) (n x : string) (m : fkarg) : option factory :=
    if negb (f_used f) && is_table f n && negb (is_generic f n) && is_table f x && negb (is_generic f x) then
      match mapping_of m with
      | Some l =>
          if forallb (fun p => has_field f n (fst p) && has_field f x (snd p)) l
          then Some (with_fks f (sadd fk_eqb (f_fks f) (mkFk n x l)))
          else None
      | None => None
      end
    else None.

  (** utils.py 77-86 [set_tooltip]: never locked. *)
  Definition set_tip (f : factory) (t x tip : string) : option factory :=
    if is_table f t && (String.eqb x "" || has_field f t x) then
      Some (with_tips f (if String.eqb tip "" then ddel tf_eqb (f_tips f) (t, x)
                         else dset tf_eqb (f_tips f) (t, x) tip))
    else None.

  (** ticdatfactory.py 1021-1022 *)
  Definition good_flag (v : value) : bool :=
    match v with
    | VStr s => String.eqb s "N/A"
    | VNum n => num_ltb (of_int 0) n && num_ltb n PInf
    | VNone => true
    | _ => false
    end.
  (** ticdatfactory.py 967, 947, 986 *)
  Definition good_xlsx (v : value) : bool :=
    match v with VStr s => mem_str s ["prune"; "ignore"] | _ => false end.
  (** ticdatfactory.py 947. *)
  Definition good_dup (v : value) : bool :=
    match v with VStr s => mem_str s ["assert"; "warn"; "ignore"] | _ => false end.
  (** ticdatfactory.py 986. *)
  Definition good_auto (v : value) : bool := pyeq v (VBool true) || pyeq v (VBool false).

  (** A [verify] that fails leaves the state as it is; the checks of ticdatfactory.py 192-582. *)
  Definition or_raise (f : factory) (o : option factory) : factory * bool :=
    match o with Some f' => (f', false) | None => (f, true) end.

  (** One API call: the state afterwards and whether it raised (ticdatfactory.py 192-582, 938-1024). *)
  Definition step (f : factory) (o : op) : factory * bool :=
    match o with
    | OSetType t x a => or_raise f (set_data_type f t x a)
    | OClearType t x => or_raise f (clear_data_type f t x)
    | OPred t p n => or_raise f (add_pred f t p n)
    | OAddParam n v a e => or_raise f (add_parameter f n v a e)
    | ORemParam n => or_raise f (remove_parameter f n)
    | OSetDefault t x v => or_raise f (set_default f t x v)
    | OSetDefaults l => set_defaults f l
    | OSetGens g => or_raise f (set_gens f g)
    | OClearFks t => or_raise f (clear_fks f t)
    | OAddFk n x m => or_raise f (add_fk f n x m)
    | OImplied n => or_raise f (if f_used f then None
                                else option_map (with_fks f) (add_implied n (plain_schema f) (f_fks f)))
    | OLinks => (with_links f true, false)
    | OTip t x s => or_raise f (set_tip f t x s)
    | OFlag v => or_raise f (if good_flag v then Some (with_flags f v (f_xlsx f) (f_dup f) (f_auto f)) else None)
    | OXlsx v => or_raise f (if good_xlsx v then Some (with_flags f (f_flag f) v (f_dup f) (f_auto f)) else None)
    | ODup v => or_raise f (if good_dup v then Some (with_flags f (f_flag f) (f_xlsx f) v (f_auto f)) else None)
    | OAuto v => or_raise f (if good_auto v then Some (with_flags f (f_flag f) (f_xlsx f) (f_dup f) v) else None)
    | OUse => (with_used f true, false)
    end.

  (** A client that carries on after exceptions (calls of ticdatfactory.py 192-582, 938-1024). *)
  Definition run (f : factory) (ops : list op) : factory := fold_left (fun g o => fst (step g o)) ops f.

  (** A function body: the first exception aborts (as in ticdatfactory.py 131-155). *)
  Fixpoint exec (f : factory) (ops : list op) : option factory :=
    match ops with
    | [] => Some f
    | o :: ops' => match step f o with
                   | (g, false) => exec g ops'
                   | (_, true) => None
                   end
    end.

  (** ** Schemas: 69-156 *)

  (** The dictionary returned by [schema(include_ancillary_info=True)] (ticdatfactory.py 69-99). *)
  Record fschema : Type := mkS {
    s_tables : list (string * tdecl);
    s_fks : list fk;
    s_defaults : defaults;
    s_types : types;
    s_params : list (value * (option dtype * value));
    s_flag : value;
    s_xlsx : value;
    s_dup : value;
    s_auto : value;
    s_tips : list (string * list (string * string))
  }.

  (** utils.py 88-95 [make_tooltips_dict_json_friendly]. *)
  Definition friendly_tips (l : list ((string * string) * string)) : list (string * list (string * string)) :=
    fold_left (fun acc kv => dset2 acc (fst (fst kv)) (snd (fst kv)) (snd kv)) l [].

  (** ticdatfactory.py 69-99.  The source walks a set of tables, [tables] is the order in which
      it does. *)
  Definition schema_in_order (f : factory) (tables : list (string * tdecl)) : fschema :=
    mkS tables (f_fks f) (f_defaults f) (f_types f) (f_params f) (f_flag f) (f_xlsx f) (f_dup f) (f_auto f)
        (friendly_tips (f_tips f)).

  (** ticdatfactory.py 486: a one-pair mapping is presented as a pair. *)
  Definition fkarg_of (m : list (string * string)) : fkarg :=
    match m with [(n, x)] => Simple n x | _ => Compound m end.

  (** The nested loops of ticdatfactory.py 131-155. *)
  Definition nested_ops {V} (mk : string -> string -> V -> op) (d : list (string * list (string * V))) : list op :=
    flat_map (fun tl => map (fun xv => mk (fst tl) (fst xv) (snd xv)) (snd tl)) d.

  (** ticdatfactory.py 139-143 *)
  Definition param_op (p : value * (option dtype * value)) : op :=
    match fst (snd p) with
    | None => OAddParam (fst p) (snd (snd p)) nonnull_args false
    | Some dt => OAddParam (fst p) (snd (snd p)) (args_of dt) true
    end.

  (** ticdatfactory.py 131-155: the calls made by [create_from_full_schema]. *)
  Definition create_ops (s : fschema) : list op :=
    map (fun k => OAddFk (fk_native k) (fk_foreign k) (fkarg_of (fk_map k))) (s_fks s) ++
    nested_ops (fun t x dt => OSetType t x (args_of dt)) (s_types s) ++
    nested_ops OSetDefault (s_defaults s) ++
    map param_op (s_params s) ++
    [OFlag (s_flag s); OXlsx (s_xlsx s); ODup (s_dup s); OAuto (s_auto s)] ++
    nested_ops OTip (s_tips s).

  (** ticdatfactory.py 125-129: parameter names must be strings.  Default values are scalars in
      this model, so [containerish] never holds. *)
  Definition param_names_ok (s : fschema) : bool :=
    forallb (fun p => match fst p with VStr _ => true | _ => false end) (s_params s).

  (** ticdatfactory.py 100-156 [create_from_full_schema]. *)
  Definition create (s : fschema) : option factory :=
    if param_names_ok s then
      match init (s_tables s) with
      | Some f => exec f (create_ops s)
      | None => None
      end
    else None.

  (** ** Clones ([(t, f) in fields_to_remove], utils.py 205-222) *)

  Definition mem_tf (p : string * string) (l : list (string * string)) : bool := existsb (tf_eqb p) l.

  (** utils.py 195-197: the fields of all tables; a generic table raises
      (its value '*' cannot be unpacked into two lists). *)
  Definition all_plain (s : fschema) : bool :=
    forallb (fun td => match snd td with Fields _ => true | Generic => false end) (s_tables s).

  (** utils.py 205-208. *)
  Definition strip_fields (t : string) (rm : list (string * string)) (l : list string) : list string :=
    filter (fun x => negb (mem_tf (t, x) rm)) l.

  (** utils.py 205-208. *)
  Definition strip_decl (t : string) (rm : list (string * string)) (d : tdecl) : tdecl :=
    match d with
    | Generic => Generic
    | Fields ts => Fields (mkT (strip_fields t rm (tpk ts)) (strip_fields t rm (tdf ts)))
    end.

  (** utils.py 209-213 *)
  Definition strip_nested {V} (keep : list string) (rm : list (string * string))
    (d : list (string * list (string * V))) : list (string * list (string * V)) :=
    map (fun tl => (fst tl, filter (fun xv => negb (mem_tf (fst tl, fst xv) rm)) (snd tl)))
      (filter (fun tl => mem_str (fst tl) keep) d).

  (** utils.py 214-222 *)
  Definition keep_fk (keep : list string) (rm : list (string * string)) (k : fk) : bool :=
    mem_str (fk_native k) keep && mem_str (fk_foreign k) keep &&
    forallb (fun p => negb (mem_tf (fk_native k, fst p) rm) && negb (mem_tf (fk_foreign k, snd p) rm)) (fk_map k).

  (** utils.py 168-229 [clone_a_anchillary_info_schema].  Both optional
      arguments [None]: the schema itself.  An empty [table_restrictions] means
      all tables (183). *)
  Definition restrict (s : fschema) (keep : option (list string)) (rm : option (list (string * string)))
    : option fschema :=
    match keep, rm with
    | None, None => Some s
    | _, _ =>
        let keep' := match keep with Some (t :: l) => t :: l | _ => map fst (s_tables s) end in
        let rm' := match rm with Some l => l | None => [] end in
        if negb (Nat.eqb (List.length (s_tables s)) 0) &&
           forallb (fun t => dmem String.eqb (s_tables s) t) keep' && all_plain s &&
           forallb (fun p => match dget String.eqb (s_tables s) (fst p) with
                             | Some (Fields ts) => mem_str (snd p) (tpk ts ++ tdf ts)
                             | _ => false
                             end) rm'
        then Some (mkS
               (map (fun td => (fst td, strip_decl (fst td) rm' (snd td)))
                  (filter (fun td => mem_str (fst td) keep') (s_tables s)))
               (filter (keep_fk keep' rm') (s_fks s))
               (strip_nested keep' rm' (s_defaults s))
               (strip_nested keep' rm' (s_types s))
               (if mem_str "parameters" keep' then s_params s else [])
               (s_flag s) (s_xlsx s) (s_dup s) (s_auto s)
               (strip_nested keep' rm' (s_tips s)))
        else None
    end.

  (** ticdatfactory.py 1388-1394: the row predicates to copy. *)
  Definition pred_ops (keep : option (list string)) (ps : list (string * list (value * rpred))) : list op :=
    flat_map (fun tl =>
      if match keep with None => true | Some l => mem_str (fst tl) l end
      then map (fun np => OPred (fst tl) (Some (snd np)) (fst np)) (snd tl) else []) ps.

  (** ticdatfactory.py 1382-1395: the second half of [clone] (the default factory or one that
      post-processes the schema with [edit]).  [convert_dat] and the PanDat
      target are not modelled. *)
  Definition clone_with (f : factory) (tables : list (string * tdecl)) (keep : option (list string))
    (edit : fschema -> option fschema) : option factory :=
    match restrict (schema_in_order f tables) keep None with
    | None => None
    | Some s =>
        match edit s with
        | None => None
        | Some s' =>
            match create s' with
            | None => None
            | Some g => exec g (OSetGens (f_gens f) :: pred_ops keep (f_preds f) ++
                                (if f_links f then [OLinks] else []))
            end
        end
    end.

  (** ticdatfactory.py 1352-1402 [clone(table_restrictions)]. *)
  Definition clone (f : factory) (tables : list (string * tdecl)) (keep : option (list string)) : option factory :=
    clone_with f tables keep (fun s => Some s).

  (** [l.insert(i, x)], utils.py 104-107. *)
  Fixpoint insert_at {A} (i : nat) (x : A) (l : list A) : list A :=
    match i, l with
    | 0, _ => x :: l
    | S i', y :: l' => y :: insert_at i' x l'
    | S _, [] => [x]
    end.

  (** utils.py 100-109. *)
  Definition add_field (key_field : bool) (i : nat) (x : string) (d : tdecl) : tdecl :=
    match d with
    | Generic => Generic
    | Fields ts => Fields (if key_field then mkT (insert_at i x (tpk ts)) (tdf ts)
                           else mkT (tpk ts) (insert_at i x (tdf ts)))
    end.

  (** utils.py 97-111 [clone_add_a_column]; [None] position is "append". *)
  Definition clone_add_column (f : factory) (tables : list (string * tdecl)) (t x : string)
    (key_field : bool) (pos : option nat) : option factory :=
    match table_of f t with
    | None => None
    | Some ts =>
        let cur := if key_field then tpk ts else tdf ts in
        let i := match pos with Some i => i | None => List.length cur end in
        if negb (mem_str x cur) && Nat.leb i (List.length cur) then
          clone_with f tables None (fun s =>
            match restrict s (Some (map fst (f_decl f))) None with
            | None => None
            | Some s' =>
                Some (mkS (map (fun td => if String.eqb (fst td) t then (fst td, add_field key_field i x (snd td)) else td)
                             (s_tables s'))
                        (s_fks s') (s_defaults s') (s_types s') (s_params s') (s_flag s') (s_xlsx s') (s_dup s')
                        (s_auto s') (s_tips s'))
            end)
        else None
    end.

  (** utils.py 113-121 [clone_remove_a_column]. *)
  Definition clone_remove_column (f : factory) (tables : list (string * tdecl)) (t x : string) : option factory :=
    if has_field f t x then
      clone_with f tables None (fun s => restrict s (Some (map fst (f_decl f))) (Some [(t, x)]))
    else None.

  (** utils.py 136-149: the new name in the list of fields. *)
  Definition rename_in (t x y t' x' : string) : string :=
    if String.eqb t' t && String.eqb x' x then y else x'.

  (** utils.py 150-163 *)
  Definition rename_fk_ops (t x y : string) (fks : list fk) : list op :=
    flat_map (fun k =>
      if existsb (fun p => tf_eqb (t, x) (fk_native k, fst p) || tf_eqb (t, x) (fk_foreign k, snd p)) (fk_map k)
      then [OAddFk (fk_native k) (fk_foreign k)
              (fkarg_of (map (fun p => (rename_in t x y (fk_native k) (fst p),
                                        rename_in t x y (fk_foreign k) (snd p))) (fk_map k)))]
      else []) fks.

  (** utils.py 136-166 [clone_rename_a_column].  [tables], [tables'] are the
      iteration orders of the two schemas involved. *)
  Definition clone_rename_column (f : factory) (tables tables' : list (string * tdecl)) (t x y : string)
    : option factory :=
    match table_of f t with
    | None => None
    | Some ts =>
        if mem_str x (tpk ts ++ tdf ts) && negb (mem_str y (tpk ts ++ tdf ts)) then
          let key_field := mem_str x (tpk ts) in
          let i := index_of x (if key_field then tpk ts else tdf ts) in
          match clone_remove_column f tables t x with
          | None => None
          | Some g =>
              match clone_add_column g tables' t y key_field (Some i) with
              | None => None
              | Some h =>
                  exec h
                    ((match dget2 (f_types f) t x with Some dt => [OSetType t y (args_of dt)] | None => [] end) ++
                     (match dget2 (f_defaults f) t x with Some v => [OSetDefault t y v] | None => [] end) ++
                     rename_fk_ops t x y (f_fks f) ++
                     (if String.eqb x "" then [] (* the key of [_tooltips] is then [t], not [(t, "")] *)
                      else match dget tf_eqb (f_tips f) (t, x) with Some s => [OTip t y s] | None => [] end))
              end
          end
        else None
    end.
End Step.
