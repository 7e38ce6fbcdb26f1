(** * PanDatFactory: the schema state machine.

    pandatfactory.py 83-287 (schema, create_from_full_schema, clone), 299-380 (tooltips, flags), 573-917 (the mutators), 918-975 (constructor);
    ticdatfactory.py 1352-1402 with a PanDatFactory as target; utils.py 97-166, 123-134 (clone_add_a_table).
    The state is that of Factory.v; there are no generator tables and no links between rows. *)
From Coq Require Import ZArith Bool List String Ascii Arith.
From Verif Require Import PyVal PyDict PyStr TypeDict Data FindTypes FK Factory.
Import ListNotations.
Local Open Scope string_scope.
Local Open Scope list_scope.

(** pandatfactory.py 642-705 [add_data_row_predicate]: generic tables are welcome. *)
Definition pan_add_pred (f : factory) (t : string) (p : option rpred) (name : value) : option factory :=
  if negb (f_used f) && is_table f t then
    match p with
    | None =>
        match dget String.eqb (f_preds f) t with
        | Some d => Some (with_preds f (dset String.eqb (f_preds f) t (ddel pyeq d name)))
        | None => Some f
        end
    | Some p =>
        if mem_str (p_resp p) ["Boolean"; "Error Message"] then
          let d := dget_or String.eqb (f_preds f) t [] in
          let nm := match name with VNone => fresh_name d | _ => name end in
          Some (with_preds f (dset String.eqb (f_preds f) t (dset pyeq d nm p)))
        else None
    end
  else None.

(** pandatfactory.py 829-835: one table of [set_default_values], field by field. *)
Definition pan_table_defaults (tv : string * list (string * value)) (f : factory) : factory * bool :=
  if is_table f (fst tv) && match table_of f (fst tv) with Some _ => true | None => false end &&
     forallb (fun xv => has_field f (fst tv) (fst xv)) (snd tv)
  then for_each (fun xv g => or_raise g (set_default g (fst tv) (fst xv) (snd xv))) (snd tv) f
  else (f, true).

(** pandatfactory.py 812-835 [set_default_values]: what was set before the exception stays. *)
Definition pan_set_defaults (f : factory) (l : list (string * list (string * value))) : factory * bool :=
  if f_used f then (f, true) else for_each pan_table_defaults l f.

Section Pan.
  Variable parses : value -> bool.

  (** One API call.  Where Factory.v is used the bodies of the two methods agree, up to messages and the cache of
      pandatfactory.py 409, 621, 640. *)
  Definition pan_step (f : factory) (o : op) : factory * bool :=
    match o with
    | OSetType t x a => or_raise f (set_data_type f t x a)               (** 573-621 *)
    | OClearType t x => or_raise f (clear_data_type f t x)               (** 623-640 *)
    | OPred t p n => or_raise f (pan_add_pred f t p n)                   (** 642-705 *)
    | OAddParam n v a e => or_raise f (add_parameter parses f n v a e)   (** 718-773 *)
    | ORemParam n => or_raise f (remove_parameter f n)                   (** 775-784 *)
    | OSetDefault t x v => or_raise f (set_default f t x v)              (** 786-810 *)
    | OSetDefaults l => pan_set_defaults f l                             (** 812-835 *)
    | OClearFks t => or_raise f (clear_fks f t)                          (** 837-853 *)
    | OAddFk n x m => or_raise f (add_fk f n x m)                        (** 875-915 *)
    | OTip t x s => or_raise f (set_tip f t x s)                         (** 299-315 *)
    | OFlag v => or_raise f (if good_flag v then Some (with_flags f v (f_xlsx f) (f_dup f) (f_auto f)) else None)       (** 381-409 *)
    | OXlsx v => or_raise f (if good_xlsx v then Some (with_flags f (f_flag f) v (f_dup f) (f_auto f)) else None)       (** 344-356 *)
    | ODup v => or_raise f (if good_dup v then Some (with_flags f (f_flag f) (f_xlsx f) v (f_auto f)) else None)        (** 326-337 *)
    | OAuto v => or_raise f (if good_auto v then Some (with_flags f (f_flag f) (f_xlsx f) (f_dup f) v) else None)       (** 364-374 *)
    | OUse => (with_used f true, false)                                  (** 916-917, 987 *)
    | OSetGens _ | OImplied _ | OLinks => (f, true)                      (** no such method: AttributeError *)
    end.

  (** A client that carries on after exceptions (calls of pandatfactory.py 299-917). *)
  Definition pan_run (f : factory) (ops : list op) : factory := fold_left (fun g o => fst (pan_step g o)) ops f.

  (** The first exception aborts (as in pandatfactory.py 153-178). *)
  Fixpoint pan_exec (f : factory) (ops : list op) : option factory :=
    match ops with
    | [] => Some f
    | o :: ops' => match pan_step f o with
                   | (g, false) => pan_exec g ops'
                   | (_, true) => None
                   end
    end.

  (** pandatfactory.py 118-179 [create_from_full_schema]; the constructor, 918-975, is as in Factory.v. *)
  Definition pan_create (s : fschema) : option factory :=
    if param_names_ok s then
      match init (s_tables s) with
      | Some f => pan_exec f (create_ops s)
      | None => None
      end
    else None.

  (** pandatfactory.py 211-228: [clone], with the schema edited before it is used.  [tables] is the order in which
      the set of pandatfactory.py 103 is walked. *)
  Definition pan_clone_with (f : factory) (tables : list (string * tdecl)) (keep : option (list string))
    (edit : fschema -> option fschema) : option factory :=
    match restrict (schema_in_order f tables) keep None with
    | None => None
    | Some s =>
        match edit s with
        | None => None
        | Some s' =>
            match pan_create s' with
            | None => None
            | Some g => pan_exec g (pred_ops keep (f_preds f))
            end
        end
    end.

  (** pandatfactory.py 180-228 *)
  Definition pan_clone (f : factory) (tables : list (string * tdecl)) (keep : option (list string)) : option factory :=
    pan_clone_with f tables keep (fun s => Some s).

  (** pandatfactory.py 243-261, utils.py 97-111. *)
  Definition pan_add_column (f : factory) (tables : list (string * tdecl)) (t x : string) (key_field : bool) (pos : option nat) : option factory :=
    match table_of f t with
    | None => None
    | Some ts =>
        let cur := if key_field then tpk ts else tdf ts in
        let i := match pos with Some i => i | None => List.length cur end in
        if negb (mem_str x cur) && Nat.leb i (List.length cur) then
          pan_clone_with f tables None (fun s =>
            match restrict s (Some (map fst (f_decl f))) None with
            | None => None
            | Some s' =>
                Some (mkS (map (fun td => if String.eqb (fst td) t then (fst td, add_field key_field i x (snd td)) else td) (s_tables s'))
                        (s_fks s') (s_defaults s') (s_types s') (s_params s') (s_flag s') (s_xlsx s') (s_dup s') (s_auto s') (s_tips s'))
            end)
        else None
    end.

  (** pandatfactory.py 262-272, utils.py 113-121. *)
  Definition pan_remove_column (f : factory) (tables : list (string * tdecl)) (t x : string) : option factory :=
    if has_field f t x then
      pan_clone_with f tables None (fun s => restrict s (Some (map fst (f_decl f))) (Some [(t, x)]))
    else None.

  (** pandatfactory.py 273-287, utils.py 136-166. *)
  Definition pan_rename_column (f : factory) (tables tables' : list (string * tdecl)) (t x y : string) : option factory :=
    match table_of f t with
    | None => None
    | Some ts =>
        if mem_str x (tpk ts ++ tdf ts) && negb (mem_str y (tpk ts ++ tdf ts)) then
          let key_field := mem_str x (tpk ts) in
          let i := index_of x (if key_field then tpk ts else tdf ts) in
          match pan_remove_column f tables t x with
          | None => None
          | Some g =>
              match pan_add_column g tables' t y key_field (Some i) with
              | None => None
              | Some h =>
                  pan_exec h
                    ((match dget2 (f_types f) t x with Some dt => [OSetType t y (args_of dt)] | None => [] end) ++
                     (match dget2 (f_defaults f) t x with Some v => [OSetDefault t y v] | None => [] end) ++
                     rename_fk_ops t x y (f_fks f) ++
                     (if String.eqb x "" then []
                      else match dget tf_eqb (f_tips f) (t, x) with Some s => [OTip t y s] | None => [] end))
              end
          end
        else None
    end.

  (** utils.py 129-133: the schema with one more table. *)
  Definition with_table (t : string) (pk df : list string) (s : fschema) : fschema :=
    mkS (dset String.eqb (s_tables s) t (Fields (mkT pk df))) (s_fks s) (s_defaults s) (s_types s) (s_params s)
      (s_flag s) (s_xlsx s) (s_dup s) (s_auto s) (s_tips s).

  (** utils.py 123-134: the checks, and the edit of the schema. *)
  Definition new_table_ok (f : factory) (t : string) (pk df : list string) : bool :=
    negb (is_table f t) && negb (Nat.eqb (List.length (pk ++ df)) 0).
  (** utils.py 128-132. *)
  Definition table_edit (f : factory) (t : string) (pk df : list string) (s : fschema) : option fschema :=
    option_map (with_table t pk df) (restrict s (Some (map fst (f_decl f))) None).

  (** ticdatfactory.py 1403-1416, utils.py 123-134 [clone_add_a_table]. *)
  Definition clone_add_table (f : factory) (tables : list (string * tdecl)) (t : string) (pk df : list string) : option factory :=
    if new_table_ok f t pk df then clone_with parses f tables None (table_edit f t pk df) else None.

  (** pandatfactory.py 229-242, utils.py 123-134. *)
  Definition pan_add_table (f : factory) (tables : list (string * tdecl)) (t : string) (pk df : list string) : option factory :=
    if new_table_ok f t pk df then pan_clone_with f tables None (table_edit f t pk df) else None.

  (** pandatfactory.py 214-220, ticdatfactory.py 1387-1393: predicates with a [predicate_kwargs_maker] stay behind when
      the kind of factory changes and there is no [convert_dat] ([conv]). *)
  Definition moving_preds (conv : bool) (ps : list (string * list (value * rpred))) : list (string * list (value * rpred)) :=
    map (fun tl => (fst tl, filter (fun np => conv || match p_maker (snd np) with None => true | Some _ => false end) (snd tl))) ps.

  (** ticdatfactory.py 1376-1402 with [clone_factory=PanDatFactory]; 1385 does not apply, 1394 does. *)
  Definition tic_to_pan (f : factory) (tables : list (string * tdecl)) (keep : option (list string)) (conv : bool) : option factory :=
    match restrict (schema_in_order f tables) keep None with
    | None => None
    | Some s =>
        match pan_create s with
        | None => None
        | Some g => pan_exec g (pred_ops keep (moving_preds conv (f_preds f)) ++ (if f_links f then [OLinks] else []))
        end
    end.

  (** pandatfactory.py 206-228 with [clone_factory=TicDatFactory]. *)
  Definition pan_to_tic (f : factory) (tables : list (string * tdecl)) (keep : option (list string)) (conv : bool) : option factory :=
    match restrict (schema_in_order f tables) keep None with
    | None => None
    | Some s =>
        match create parses s with
        | None => None
        | Some g => exec parses g (pred_ops keep (moving_preds conv (f_preds f)))
        end
    end.
End Pan.
