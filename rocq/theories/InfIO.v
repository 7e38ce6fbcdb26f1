(** * Cells on their way to and from files: infinity flagging.

    ticdatfactory.py 994-1083 ([set_infinity_io_flag], [_general_read_cell],
    [_infinity_flag_write_cell], [_none_as_infinity_bias]) and
    pandatfactory.py 381-424, 441-520, 530-573.  [parameters] tables:
    ticdatfactory.py 1084-1112, 1788-1803. *)
From Coq Require Import ZArith Bool List String.
From Verif Require Import PyVal PyDict TypeDict Data FindTypes FK Factory.
Import ListNotations.
Local Open Scope string_scope.
Local Open Scope list_scope.

(** Python [-x] (ticdatfactory.py 1048, 1067). *)
Definition num_opp (a : num) : num :=
  match a with NInf => PInf | PInf => NInf | Fin z => Fin (- z) end.

(** Python [min(a, b)] and [max(a, b)]: the first argument unless the second
    is strictly better (ticdatfactory.py 1067). *)
Definition py_min (a b : num) : num := if num_ltb b a then b else a.
(** Python [max(a, b)], ticdatfactory.py 1067. *)
Definition py_max (a b : num) : num := if num_ltb a b then b else a.

(** What a call returns: a value, or a raised exception (of any function of /repo, e.g. ticdatfactory.py 1026-1052). *)
Inductive outcome (A : Type) : Type :=
| Ret : A -> outcome A
| Raise : outcome A.
Arguments Ret {A} _.
Arguments Raise {A}.

(** The keys of [_none_as_infinity_bias_cache] are pairs of names; a bias of 1
    is [Some true], of -1 is [Some false], None is [None] (1079-1082). *)
Definition bias_cache := list ((string * string) * option bool).

(** [float("inf") * bias] (ticdatfactory.py 1050-1052, 1064-1065). *)
Definition inf_of (b : bool) : value := VNum (if b then PInf else NInf).

(** A factory together with its cache (ticdatfactory.py 1069-1083). *)
Record iofac : Type := mkIO { io_fac : factory; io_cache : bias_cache }.

(** Python truth of [strings_allowed]: ['*'] or a non-empty tuple (utils.py 296-321). *)
Definition strs_truthy (s : strs) : bool :=
  match s with SStar => true | SList [] => false | SList _ => true end.

Section IO.
  (** [dateutil_adjuster] (utils.py 231-256) for strings and booleans: external (pandas, dateutil).  [Z]: the stamp. *)
  Variable date_of : value -> option Z.
  (** [safe_apply(float)] on strings and finite numbers: external (parsing and
      rounding). *)
  Variable float_of : value -> option value.

  (** utils.py 231-256.  Numbers are never handed to pandas (240) and
      [dateutil.parser.parse] raises on them; for None pandas answers NaT,
      which is discarded (248), and dateutil raises. *)
  Definition adjust (v : value) : option Z :=
    match v with
    | VDate d => Some d
    | VNum _ | VNaN | VNone => None
    | _ => date_of v
    end.

  (** [valid_data]'s test for a datetime (utils.py 296-300). *)
  Definition is_date (v : value) : bool :=
    match adjust v with Some _ => true | None => false end.

  (** [safe_apply(float)(v)] (ticdatfactory.py 1043). *)
  Definition to_float (v : value) : option value :=
    match v with
    | VNone | VDate _ => None
    | VNaN => Some VNaN
    | VBool b => Some (canon (VBool b))
    | VNum (Fin z) => float_of v
    | VNum _ => Some v
    | VStr _ => float_of v
    end.

  (** [self._data_types.get(t, {}).get(f)] (ticdatfactory.py 1036-1045). *)
  Definition field_type (f : factory) (t x : string) : option dtype := dget2 (f_types f) t x.

  (** ticdatfactory.py 1074-1081 [_f]. *)
  Definition bias_now (f : factory) (t x : string) : outcome (option bool) :=
    match field_type f t x with
    | Some dt =>
        if number_allowed dt && negb (valid_data is_date dt VNone) then
          if valid_data is_date dt (VNum PInf) && valid_data is_date dt (VNum NInf) then Raise
          else if valid_data is_date dt (VNum PInf) then Ret (Some true)
          else if valid_data is_date dt (VNum NInf) then Ret (Some false)
          else Ret None
        else Ret None
    | None => Ret None
    end.

  (** ticdatfactory.py 1069-1083 [_none_as_infinity_bias]; the second component is the cache
      afterwards. *)
  Definition bias (s : iofac) (t x : string) : outcome (option bool) * bias_cache :=
    match f_flag (io_fac s) with
    | VNone =>
        if is_table (io_fac s) t then
          match dget tf_eqb (io_cache s) (t, x) with
          | Some b => (Ret b, io_cache s)
          | None =>
              match bias_now (io_fac s) t x with
              | Ret b => (Ret b, dset tf_eqb (io_cache s) (t, x) b)
              | Raise => (Raise, io_cache s)
              end
          end
        else (Raise, io_cache s)
    | _ => (Ret None, io_cache s)
    end.

  (** ticdatfactory.py 1043-1045 *)
  Definition munge (f : factory) (t x : string) (v : value) : value :=
    match field_type f t x with
    | Some dt =>
        if negb (datetime dt) && strs_truthy (strings_allowed dt) && number_allowed dt && truthy (f_auto f)
        then match to_float v with Some w => w | None => v end
        else v
    | None => v
    end.

  (** ticdatfactory.py 1046-1050 *)
  Definition unflag (flag v : value) : value :=
    match flag, v with
    | VNum m, VNum n =>
        if num_leb m n then VNum PInf
        else if num_leb n (num_opp m) then VNum NInf
        else v
    | _, _ => v
    end.

  (** ticdatfactory.py 1026-1052 [_general_read_cell].  The assertion of 1034 raises. *)
  Definition read_cell (s : iofac) (t x : string) (v : value) : outcome value * bias_cache :=
    let f := io_fac s in
    if negb (is_table f t) then (Raise, io_cache s)
    else if String.eqb t "parameters" then (Ret v, io_cache s)
    else
      match (match field_type f t x with
             | Some dt => if datetime dt && negb (is_null v) then adjust v else None
             | None => None
             end) with
      | Some d => (Ret (VDate d), io_cache s)
      | None =>
          match unflag (f_flag f) (munge f t x v), f_flag f with
          | VNone, VNone =>
              match bias s t x with
              | (Ret (Some b), c) => (Ret (inf_of b), c)
              | (Ret None, c) => (Ret VNone, c)
              | (Raise, c) => (Raise, c)
              end
          | w, _ => (Ret w, io_cache s)
          end
      end.

  (** ticdatfactory.py 1065-1067 *)
  Definition flagged (flag v : value) : value :=
    match flag, v with
    | VNum m, VNum n => VNum (py_max (py_min n m) (num_opp m))
    | _, _ => v
    end.

  (** [bool(self._parameters)] (ticdatfactory.py 1035). *)
  Definition has_params (f : factory) : bool := negb (Nat.eqb (List.length (f_params f)) 0).

  (** ticdatfactory.py 1053-1068 [_infinity_flag_write_cell]. *)
  Definition write_cell (s : iofac) (t x : string) (v : value) : outcome value * bias_cache :=
    let f := io_fac s in
    if String.eqb t "parameters" && has_params f then
      (Ret (if is_null v then VNone else v), io_cache s)
    else
      match f_flag f with
      | VNone =>
          match bias s t x with
          | (Ret (Some b), c) => (Ret (if value_eqb (inf_of b) v then VNone else v), c)
          | (Ret None, c) => (Ret v, c)
          | (Raise, c) => (Raise, c)
          end
      | flag => (Ret (flagged flag v), io_cache s)
      end.

  (** ** Histories: factory calls interleaved with reads and writes of cells (ticdatfactory.py 1026-1083) *)

  Inductive iop : Type :=
  | IFac : op -> iop
  | IRead : string -> string -> value -> iop
  | IWrite : string -> string -> value -> iop.

  (** The cache is cleared by [set_data_type] (242), [clear_data_type] (261,
      not when it returns early) and [set_infinity_io_flag] (1024), at the end
      of a call that does not raise. *)
  Definition clears (f : factory) (o : op) : bool :=
    match o with
    | OSetType _ _ _ => true
    | OClearType t x => dmem String.eqb (dget_or String.eqb (f_types f) t []) x
    | OFlag _ => true
    | _ => false
    end.

  (** One such call, ticdatfactory.py 1026-1083. *)
  Definition istep (s : iofac) (o : iop) : iofac :=
    match o with
    | IFac o =>
        match step is_date (io_fac s) o with
        | (g, raised) => mkIO g (if clears (io_fac s) o && negb raised then [] else io_cache s)
        end
    | IRead t x v => mkIO (io_fac s) (snd (read_cell s t x v))
    | IWrite t x v => mkIO (io_fac s) (snd (write_cell s t x v))
    end.

  (** A sequence of calls, ticdatfactory.py 1026-1083. *)
  Definition irun (s : iofac) (h : list iop) : iofac := fold_left istep h s.

  (** ** PanDat tables: pandatfactory.py 441-495, 530-573 *)

  (** A DataFrame: the values of its rows, in the order of the fields (pandatfactory.py 552-559). *)
  Definition mask_col (fs : list string) (l : list (list value)) (x : string) (g : value -> value)
    : list (list value) :=
    map (fun r => map (fun fv => if String.eqb (fst fv) x then g (snd fv) else snd fv) (combine fs r)) l.

  (** pandatfactory.py 548-551, 471-475: [numericish(row[f]) and abs(row[f]) >= flag]. *)
  Definition num_abs_ge (m : num) (v : value) : bool :=
    match v with
    | VNum n => num_leb m n || num_leb n (num_opp m)
    | _ => false
    end.

  (** pandatfactory.py 548-551, 471-475, 562-565 [fields_w_issues]: the fields among [scan] for
      which some row has an issue. *)
  Definition fields_w_issues (scan fs : list string) (l : list (list value)) (bad : string -> value -> bool)
    : list string :=
    filter (fun x => existsb (fun r => existsb (fun fv => String.eqb (fst fv) x && bad x (snd fv))
                                         (combine fs r)) l) scan.

  (** pandatfactory.py 546-559: the numeric branch of [_pre_write_adjustment]. *)
  Definition pan_write_num (m : num) (fs : list string) (l : list (list value)) : list (list value) :=
    fold_left (fun l x =>
      let l1 := mask_col fs l x
        (fun v => match v with VNum n => if num_leb m n then VNum m else v | _ => v end) in
      mask_col fs l1 x
        (fun v => match v with VNum n => if num_leb n (num_opp m) then VNum (num_opp m) else v | _ => v end))
      (fields_w_issues fs fs l (fun _ => num_abs_ge m)) l.

  (** [row[f] == float("inf") * bias] (pandatfactory.py 562-570). *)
  Definition is_bias_inf (b : option bool) (v : value) : bool :=
    match b with Some b => value_eqb (inf_of b) v | None => false end.

  (** pandatfactory.py 560-572: the None branch; [bs] gives the bias of each field. *)
  Definition pan_write_none (bs : string -> option bool) (fs : list string) (l : list (list value))
    : list (list value) :=
    fold_left (fun l x => mask_col fs l x (fun v => if is_bias_inf (bs x) v then VNone else v))
      (fields_w_issues (filter (fun x => match bs x with Some _ => true | None => false end) fs) fs l
         (fun x => is_bias_inf (bs x))) l.

  (** [_none_as_infinity_bias] for every field of a table.  Simplification: the
      cache is left out (the code is that of TicDatFactory, theorem C36). *)
  Definition biases (f : factory) (t : string) (fs : list string) : outcome (string -> option bool) :=
    match f_flag f with
    | VNone =>
        if existsb (fun x => match bias_now f t x with Raise => true | Ret _ => false end) fs then Raise
        else Ret (fun x => match bias_now f t x with Ret b => b | Raise => None end)
    | _ => Ret (fun _ => None)
    end.

  (** pandatfactory.py 521-573 [_pre_write_adjustment], one table with fields [fs]. *)
  Definition pan_write (f : factory) (t : string) (fs : list string) (l : list (list value))
    : outcome (list (list value)) :=
    if String.eqb t "parameters" then
      Ret (if has_params f then mask_col fs l (last fs "") (fun v => if is_null v then VNone else v) else l)
    else
      match f_flag f with
      | VNum m => Ret (pan_write_num m fs l)
      | VNone => match biases f t fs with Ret bs => Ret (pan_write_none bs fs l) | Raise => Raise end
      | _ => Ret l
      end.

  (** pandatfactory.py 462-477 *)
  Definition pan_read_num (m : num) (fs : list string) (l : list (list value)) : list (list value) :=
    fold_left (fun l x => mask_col fs l x (unflag (VNum m)))
      (fields_w_issues fs fs l (fun _ => num_abs_ge m)) l.

  (** pandatfactory.py 478-489 for one cell: automunge, None flag, datetime. *)
  Definition pan_read_cell (f : factory) (b : option bool) (t x : string) (v : value) : value :=
    let v1 := munge f t x v in
    let v2 := match b with Some b => if is_null v1 then inf_of b else v1 | None => v1 end in
    match field_type f t x with
    | Some dt => if datetime dt then match adjust v2 with Some d => VDate d | None => v2 end else v2
    | None => v2
    end.

  (** pandatfactory.py 441-493 [_general_post_read_adjustment], one table with fields [fs] other
      than [parameters] and not read from json. *)
  Definition pan_read (f : factory) (t : string) (fs : list string) (l : list (list value))
    : outcome (list (list value)) :=
    let l1 := match f_flag f with VNum m => pan_read_num m fs l | _ => l end in
    match biases f t fs with
    | Ret bs => Ret (map (fun r => map (fun fv => pan_read_cell f (bs (fst fv)) t (fst fv) (snd fv)) (combine fs r)) l1)
    | Raise => Raise
    end.
End IO.
