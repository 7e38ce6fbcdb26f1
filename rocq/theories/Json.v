(** * JSON files: jsontd.py 25-47 (make_json_dict), 160-180
    (_create_tic_dat_dict), 97-104 (create_tic_dat), 107-134 (find_duplicates);
    utils.py 761-783 (find_duplicates_from_dict_ticdat).

    A document is what [json.load] returns: a dict from keys to lists of rows, a
    row being a list, a dict or a scalar.  The json module is taken to return
    what was dumped (None, booleans, numbers, NaN, infinities and strings; lists
    in order; dicts in any order, [sort_keys=True]).  Tables that
    are JSON objects, among them the pandas formats ([from_pandas],
    [to_pandas], [_looks_pandas]), and files are in JsonDoc.v.  Not modelled:
    generic and generator tables (refused, jsontd.py 19-23), cells that are containers.  The cache of [_none_as_infinity_bias] is left out
    (theorem C36). *)
From Coq Require Import ZArith Bool List String Ascii Arith.
From Verif Require Import PyVal PyDict PyStr Data FindTypes FK Factory InfIO Params Names Obj Utils.
Import ListNotations.
Local Open Scope string_scope.
Local Open Scope list_scope.

(** The argument [jdict] of jsontd.py 160-180. *)
Definition jdoc := list (string * list rowin).

(** [\[f(x) for x in l\]] where [f] may raise (the comprehensions of jsontd.py 160-180). *)
Fixpoint mapO {A B} (f : A -> outcome B) (l : list A) : outcome (list B) :=
  match l with
  | [] => Ret []
  | x :: l' => match f x, mapO f l' with Ret y, Ret r => Ret (y :: r) | _, _ => Raise end
  end.

(** Sequencing of calls that may raise, jsontd.py 97-104. *)
Definition bindO {A B} (o : outcome A) (f : A -> outcome B) : outcome B :=
  match o with Ret x => f x | Raise => Raise end.

(** [list(pk) if containerish(pk) else \[pk\]] (jsontd.py 38-41). *)
Definition key_cells (k : pkey) : list value := match k with KAtom v => [v] | KTup l => l end.

(** The rows of a table, keys first (jsontd.py 38-46). *)
Definition full_rows (tb : otable) : list (list value) :=
  match tb with
  | OKeyed l => map (fun kr => key_cells (fst kr) ++ snd kr) l
  | OListed l => l
  end.

(** The mode of duplicates: [duplicates_ticdat_init] (ticdatfactory.py 938-949). *)
Definition dup_mode (f : factory) : string := match f_dup f with VStr s => s | _ => "" end.

Section Json.
  Variable date_of : value -> option Z.
  Variable float_of : value -> option value.
  (** [str(x)] of a datetime. *)
  Variable show_date : Z -> string.

  (** jsontd.py 27-30, with the infinity flag on (213). *)
  Definition json_write_cell (f : factory) (t x : string) (v : value) : outcome value :=
    match v with
    | VDate d => Ret (VStr (show_date d))
    | _ => fst (write_cell date_of (mkIO f []) t x v)
    end.

  (** jsontd.py 34-37 *)
  Definition json_write_row (f : factory) (verbose : bool) (t : string) (ts : tschema) (r : list value)
    : outcome rowin :=
    bindO (mapO (fun fx => json_write_cell f t (fst fx) (snd fx)) (combine (tfields ts) r))
      (fun cells => Ret (if verbose then RDict (combine (tfields ts) cells) else RSeq cells)).

  (** jsontd.py 25-47 *)
  Definition make_json (f : factory) (verbose : bool) (d : obj) : outcome jdoc :=
    mapO (fun tts => bindO (mapO (json_write_row f verbose (fst tts) (snd tts)) (full_rows (d (fst tts))))
                       (fun rows => Ret (fst tts, rows))) (plain_schema f).

  (** [tdf._general_read_cell(t, f, x)], jsontd.py 175-179. *)
  Definition json_read_cell (f : factory) (t x : string) (v : value) : outcome value :=
    fst (read_cell date_of float_of (mkIO f []) t x v).

  (** Iterating over a string yields its characters (jsontd.py 175-179 on a string). *)
  Definition letters_of (s : string) : list value := map (fun c => VStr (String c "")) (list_ascii_of_string s).

  (** jsontd.py 175-179: [zip] stops at the shorter of fields and cells; a scalar other
      than a string cannot be iterated. *)
  Definition json_read_row (f : factory) (t : string) (ts : tschema) (x : rowin) : outcome rowin :=
    let seq l := bindO (mapO (fun fx => json_read_cell f t (fst fx) (snd fx)) (combine (tfields ts) l))
                   (fun cells => Ret (RSeq cells)) in
    match x with
    | RDict l => bindO (mapO (fun fx => bindO (json_read_cell f t (fst fx) (snd fx)) (fun v => Ret (fst fx, v))) l)
                   (fun l' => Ret (RDict l'))
    | RSeq l => seq l
    | RAtom (VStr s) => seq (letters_of s)
    | RAtom _ => Raise
    end.

  (** jsontd.py 160-180: the arguments of the constructor. *)
  Definition json_inputs (f : factory) (doc : jdoc) : outcome (list (string * tablein)) :=
    bindO (mapO (fun tts =>
      bindO (get_json_key (map fst doc) (fst tts)) (fun o =>
        match o with
        | None => Ret []
        | Some k =>
            bindO (mapO (json_read_row f (fst tts) (snd tts)) (dget_or String.eqb doc k []))
              (fun rows => Ret [(fst tts, TRows rows)])
        end)) (plain_schema f))
      (fun l => Ret (List.concat l)).

  (** ticdatfactory.py 1084-1112 on an object. *)
  Definition adjust_params (f : factory) (d : obj) : obj := fun t =>
    if String.eqb t "parameters" && has_params f then
      match d t with
      | OKeyed l => OKeyed (map (fun kr => match kr with
                                           | (KAtom k, v :: r) => (KAtom k, param_cell date_of float_of f k v :: r)
                                           | _ => kr
                                           end) l)
      | tb => tb
      end
    else d t.

  (** jsontd.py 97-104 *)
  Definition json_create (f : factory) (doc : jdoc) : outcome obj :=
    bindO (json_inputs f doc) (fun inputs =>
      match construct (plain_schema f) (f_defaults f) (dup_mode f) inputs with
      | None => Raise
      | Some d => Ret (adjust_params f d)
      end).
End Json.

(** utils.py 766-769: the keyed tables of the schema with all fields as data
    fields; the defaults of the new factory are zeros. *)
Definition keyed_tables (sch : schema) : schema :=
  filter (fun tts => negb (Nat.eqb (List.length (tpk (snd tts))) 0)) sch.
(** utils.py 766-769: the schema with keys as data fields. *)
Definition all_data (sch : schema) : schema :=
  map (fun tts => (fst tts, mkT [] (tfields (snd tts)))) (keyed_tables sch).

(** utils.py 761-783 and jsontd.py 132-134: only keys spelled like the table are
    looked at, and cells are not converted. *)
Definition json_duplicates (sch : schema) (doc : jdoc) : outcome (list (string * list (key * nat))) :=
  let inputs := map (fun kr => (fst kr, TRows (snd kr)))
                  (filter (fun kr => mem_str (fst kr) (map fst (keyed_tables sch))) doc) in
  match construct (all_data sch) [] "assert" inputs with
  | None => Raise
  | Some td =>
      find_duplicates (map (fun tts => (fst tts, tpk (snd tts))) (keyed_tables sch))
        (fun t => match td t with
                  | OListed l => map (combine (tfields (ts_of sch t))) l
                  | OKeyed _ => []
                  end)
  end.
