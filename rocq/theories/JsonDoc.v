(** * The json reader and writer of a TicDatFactory as a whole: jsontd.py 19-23, 64-66, 67-105, 106-134, 135-159, 181-215.

    Json.v and PanIO.v treat documents of one format each.  Here a document may hold rows under one key and an object
    under another, the reader decides which format it has, and the pandas formats go through the PanDatFactory
    made from the full schema.  What [read_json] makes of an object is kept with the object, as a function of the columns that are to
    be read as text (pandatio.py 115-119); what [DataFrame] makes of rows that are not all lists is the oracle
    [records]; whether the json module can write a document down is the oracle [dumps].  The data object given to the writer is good
    (Good.v).  Not modelled: [freeze_it], links between rows (an object that went through a PanDatFactory has none),
    the text of the document, cells that are containers. *)
From Coq Require Import ZArith Bool List String Ascii Arith.
From Verif Require Import PyVal PyDict PyStr TypeDict Data FindTypes FK Factory InfIO Params Names Utils Obj Json Frames PanIO PanFiles PanFac.
Import ListNotations.
Local Open Scope string_scope.
Local Open Scope list_scope.

(** What a key holds: an array, an object (its keys, and what [read_json] makes of it), or a scalar (jsontd.py 155-158). *)
Inductive jtab : Type :=
| JList : list rowin -> jtab
| JObject : list string -> ((string -> bool) -> option frame) -> jtab
| JScalar : value -> jtab.

(** The dictionary loaded, jsontd.py 140-150. *)
Definition jfile := list (string * jtab).

(** The argument [json_file_path]: a file and what it holds ([None]: no json), a folder, or a text (jsontd.py 136-150). *)
Inductive jsource : Type :=
| SFile : option jfile -> jsource
| SFolder : jsource
| SText : option jfile -> jsource.

(** jsontd.py 135-150 and pandatio.py 98-105; a document that is not a dictionary counts as no document. *)
Definition loaded (s : jsource) : outcome jfile :=
  match s with
  | SFile (Some doc) | SText (Some doc) => Ret doc
  | _ => Raise
  end.

(** jsontd.py 135-159 [_create_jdict] *)
Definition create_jdict (s : jsource) : outcome jfile :=
  bindO (loaded s) (fun doc => if forallb (fun ke => match snd ke with JScalar _ => false | _ => true end) doc then Ret doc else Raise).

(** [set(l) == {'columns', 'data'}] (jsontd.py 65, 66) *)
Definition columns_data (l : list string) : bool :=
  mem_str "columns" l && mem_str "data" l && forallb (fun x => mem_str x ["columns"; "data"]) l.

(** jsontd.py 64-66 [_looks_pandas] *)
Definition looks_pandas (f : factory) (doc : jfile) : bool :=
  if forallb (fun tts => columns_data (tfields (snd tts))) (plain_schema f) then false
  else forallb (fun ke => match snd ke with JObject ks _ => columns_data ks | _ => false end) doc.

(** jsontd.py 19-23 [_standard_verify] *)
Definition json_ready (f : factory) : bool :=
  match f_gens f with [] => true | _ => false end &&
  forallb (fun td => match snd td with Generic => false | Fields _ => true end) (f_decl f).

(** jsontd.py 174: the rows of a table; iterating over a dict yields its keys. *)
Definition as_rows (e : jtab) : list rowin :=
  match e with
  | JList rows => rows
  | JObject ks _ => map (fun k => RAtom (VStr k)) ks
  | JScalar _ => []
  end.
(** All of them, jsontd.py 172-174. *)
Definition as_jdoc (doc : jfile) : jdoc := map (fun ke => (fst ke, as_rows (snd ke))) doc.

(** Rows that are all lists, as in pandatio.py 108-113. *)
Fixpoint seqs (rows : list rowin) : option (list (list value)) :=
  match rows with
  | [] => Some []
  | RSeq l :: rows' => option_map (cons l) (seqs rows')
  | _ => None
  end.

Section JsonDoc.
  Variable parses : value -> bool.
  Variable date_of : value -> option Z.
  Variable float_of : value -> option value.
  Variable settle : list value -> list value.
  Variable show_date : Z -> string.
  Variable str_of : value -> string.
  Variable records : list rowin -> pattr.
  Variable dumps : jfile -> bool.

  (** pandatio.py 98-136 [create_pan_dat] on a document of any shape; there are no generic tables here. *)
  Definition pan_doc (g : factory) (doc : jfile) : outcome (string -> list (list value)) :=
    bindO (found g (key_get doc)) (fun l =>
      if forallb (fun ke => match snd ke with JList _ => true | _ => false end) doc then
        clean date_of float_of settle str_of true g
          (flat_map (fun te => match snd te with
                               | JList rows => [(fst te, match seqs rows with Some l => PRows (width l) l | None => records rows end)]
                               | _ => []
                               end) l)
      else if forallb (fun ke => match snd ke with JObject _ _ => true | _ => false end) doc then
        bindO (mapO (fun te => match snd te with
                               | JObject _ fr => match fr (read_as_text g (fst te)) with Some x => Ret (fst te, x) | None => Raise end
                               | _ => Raise
                               end) l)
          (fun src => create_frames date_of float_of settle str_of true false g src)
      else Raise).

  (** The attributes of the PanDat object made of these rows (pandatio.py 43-48). *)
  Definition pan_attrs (sch : schema) (d : string -> list (list value)) (t : string) : option pattr :=
    option_map (fun ts => PFrame (frame_of ts (d t))) (dget String.eqb sch t).

  (** jsontd.py 88-92; [tables] is the order in which the set of ticdatfactory.py 121 is walked. *)
  Definition via_pandas (f : factory) (tables : list (string * tdecl)) (s : jsource) : outcome obj :=
    match pan_create parses (schema_in_order f tables) with
    | None => Raise
    | Some g =>
        bindO (loaded s) (fun doc => bindO (pan_doc g doc) (fun d =>
          match copy_to_tic_dat (plain_schema g) [] (dup_mode g) (pan_attrs (plain_schema g) d) with
          | Some eg => Ret (fst eg)
          | None => Raise
          end))
    end.

  (** jsontd.py 67-105 [create_tic_dat] *)
  Definition json_read (f : factory) (tables : list (string * tdecl)) (s : jsource) (from_pandas : bool) : outcome obj :=
    if json_ready f then
      if from_pandas then via_pandas f tables s
      else bindO (create_jdict s) (fun doc =>
        if looks_pandas f doc then via_pandas f tables s else json_create date_of float_of f (as_jdoc doc))
    else Raise.

  (** jsontd.py 124-129: the rows of the PanDat object, as tuples. *)
  Definition pan_rows_doc (g : factory) (d : string -> list (list value)) : jdoc :=
    map (fun tts => (fst tts, map RSeq (d (fst tts)))) (plain_schema g).

  (** jsontd.py 123-134 with [from_pandas] *)
  Definition duplicates_via_pandas (f : factory) (tables : list (string * tdecl)) (s : jsource) : outcome (list (string * list (key * nat))) :=
    match pan_create parses (schema_in_order f tables) with
    | None => Raise
    | Some g => bindO (loaded s) (fun doc => bindO (pan_doc g doc) (fun d => json_duplicates (plain_schema f) (pan_rows_doc g d)))
    end.

  (** jsontd.py 106-134 [find_duplicates] *)
  Definition json_find_duplicates (f : factory) (tables : list (string * tdecl)) (s : jsource) (from_pandas : bool)
    : outcome (list (string * list (key * nat))) :=
    if json_ready f then
      if from_pandas then duplicates_via_pandas f tables s
      else bindO (create_jdict s) (fun doc =>
        if looks_pandas f doc then duplicates_via_pandas f tables s else json_duplicates (plain_schema f) (as_jdoc doc))
    else Raise.

  (** jsontd.py 203-206: through [copy_to_pandas] with the key columns kept, and pandatio.py 148-180. *)
  Definition make_pan_json (f : factory) (tables : list (string * tdecl)) (d : obj) : outcome jfile :=
    match pan_create parses (schema_in_order f tables), copy_to_pandas settle (plain_schema f) [] [] (Some false) false d with
    | Some g, Some l =>
        bindO (write_json date_of show_date g (fun t => match dget String.eqb l t, dget String.eqb (plain_schema g) t with
                                                        | Some (PFrame fr), Some ts => pick ts fr
                                                        | _, _ => []
                                                        end))
          (fun doc => Ret (map (fun te => (fst te, match snd te with JRows rows => JList (map RSeq rows) | _ => JScalar VNone end)) doc))
    | _, _ => Raise
    end.

  (** jsontd.py 203-210: the document to be written. *)
  Definition make_doc (f : factory) (tables : list (string * tdecl)) (d : obj) (verbose to_pandas : bool) : outcome jfile :=
    if to_pandas then make_pan_json f tables d
    else bindO (make_json date_of show_date f verbose d) (fun doc => Ret (map (fun tr => (fst tr, JList (snd tr))) doc)).

  (** What is at a path: a document, something else, or the beginning of a document whose writing failed (jsontd.py 213-214). *)
  Inductive content : Type :=
  | CDoc : jfile -> content
  | CElse : string -> content
  | CPart : content.

  (** What [create_tic_dat] finds at a path (jsontd.py 136-143). *)
  Definition at_path (fs : list (string * content)) (p : string) : jsource :=
    match dget String.eqb fs p with
    | Some (CDoc doc) => SFile (Some doc)
    | Some _ => SFile None
    | None => SText None
    end.

  (** jsontd.py 181-215 [write_file]: the files afterwards, and the document if there is no path.  [open(path, "w")] empties the
      file before [json.dump] begins (213-214). *)
  Definition json_write_file (f : factory) (tables : list (string * tdecl)) (d : obj) (path : string) (allow verbose to_pandas : bool)
    (fs : list (string * content)) : list (string * content) * outcome (option jfile) :=
    let there := match dget String.eqb fs path with Some _ => true | None => false end in
    if negb (json_ready f) || (to_pandas && verbose) || (negb (String.eqb path "") && there && negb allow) then (fs, Raise)
    else match make_doc f tables d verbose to_pandas with
         | Raise => (fs, Raise)
         | Ret doc =>
             if String.eqb path "" then (fs, if dumps doc then Ret (Some doc) else Raise)
             else if dumps doc then (dset String.eqb fs path (CDoc doc), Ret None)
             else (dset String.eqb fs path CPart, Raise)
         end.
End JsonDoc.
