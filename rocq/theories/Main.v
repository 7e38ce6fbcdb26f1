(** * The command line of an engine: utils.py 424-664 [standard_main],
    [_get_dat_object], [_get_write_function_and_kwargs], and the parts of the
    standard library's [getopt.getopt] it uses.

    The effects of a run are a list of events.  Oracles: the file system
    ([exists_], [isfile], [isdir]), the duplicate check and the reader of each
    format ([None]: they raise), [_integrity_solve] followed by the count
    (Integrity.v), [solve], what the Foresta file holds and the Foresta calls.
    Writing an output file is an event that always succeeds.  Not modelled:
    the messages, except the one about -f and -e (509) and "No solution was created!" (612). *)
From Coq Require Import Bool List String Ascii Arith.
Import ListNotations.
Local Open Scope string_scope.
Local Open Scope list_scope.

(** ** getopt.getopt(args, "hi:o:f:e:", ["help", "input=", "output=", "foresta=", "errors="]) (the call of utils.py 484-489) *)

Inductive okey : Type := KHelp | KInput | KOutput | KForesta | KErrors.

(** The colons and equal signs of utils.py 485. *)
Definition takes_arg (k : okey) : bool := match k with KHelp => false | _ => true end.

(** [short_has_arg] (the standard library's getopt.py, called at utils.py 485). *)
Definition short_key (c : ascii) : option okey :=
  if Ascii.eqb c "h" then Some KHelp
  else if Ascii.eqb c "i" then Some KInput
  else if Ascii.eqb c "o" then Some KOutput
  else if Ascii.eqb c "f" then Some KForesta
  else if Ascii.eqb c "e" then Some KErrors
  else None.

(** utils.py 485. *)
Definition long_names : list (string * okey) :=
  [("help", KHelp); ("input", KInput); ("output", KOutput); ("foresta", KForesta); ("errors", KErrors)].

(** [long_has_args]: an exact name, else the only name it is a prefix of (the standard library's getopt.py, called at utils.py 485). *)
Definition long_key (s : string) : option okey :=
  match find (fun nk => String.eqb (fst nk) s) long_names with
  | Some nk => Some (snd nk)
  | None => match filter (fun nk => String.prefix s (fst nk)) long_names with
            | [nk] => Some (snd nk)
            | _ => None
            end
  end.

(** [opt[:i], opt[i+1:]] at the first "=" (the standard library's getopt.py, called at utils.py 485). *)
Fixpoint split_eq (s : string) : string * option string :=
  match s with
  | EmptyString => (EmptyString, None)
  | String c s' =>
      if Ascii.eqb c "=" then (EmptyString, Some s')
      else let (a, b) := split_eq s' in (String c a, b)
  end.

(** What one argument is: options that are complete, then possibly one that takes its
    value from the next argument; [None] is GetoptError (the standard library's getopt.py, called at utils.py 485). *)
Definition scanned : Type := (list (okey * string) * option okey)%type.

(** [do_shorts] (the standard library's getopt.py, called at utils.py 485). *)
Fixpoint shorts (s : string) : option scanned :=
  match s with
  | EmptyString => Some ([], None)
  | String c s' =>
      match short_key c with
      | None => None
      | Some k =>
          if takes_arg k then
            match s' with
            | EmptyString => Some ([], Some k)
            | _ => Some ([(k, s')], None)
            end
          else match shorts s' with
               | Some (l, p) => Some ((k, EmptyString) :: l, p)
               | None => None
               end
      end
  end.

(** [do_longs] (the standard library's getopt.py, called at utils.py 485). *)
Definition longs (s : string) : option scanned :=
  let (name, v) := split_eq s in
  match long_key name with
  | None => None
  | Some k =>
      if takes_arg k then
        match v with
        | None => Some ([], Some k)
        | Some v => Some ([(k, v)], None)
        end
      else match v with
           | None => Some ([(k, EmptyString)], None)
           | Some _ => None
           end
  end.

(** What an argument says about the loop of [getopt]: not an option, the end of the
    options, an option (the standard library's getopt.py, called at utils.py 485). *)
Inductive word : Type :=
| WPlain : word
| WEnd : word
| WOpt : option scanned -> word.

(** The tests of getopt's loop, called at utils.py 485. *)
Definition classify (a : string) : word :=
  match a with
  | String c rest =>
      if Ascii.eqb c "-" then
        match rest with
        | EmptyString => WPlain
        | String c2 rest2 =>
            if Ascii.eqb c2 "-" then
              match rest2 with
              | EmptyString => WEnd
              | _ => WOpt (longs rest2)
              end
            else WOpt (shorts rest)
        end
      else WPlain
  | EmptyString => WPlain
  end.

(** The loop of [getopt]: options and remaining arguments (the standard library's getopt.py, called at utils.py 485). *)
Fixpoint getopt (args : list string) : option (list (okey * string) * list string) :=
  match args with
  | [] => Some ([], [])
  | a :: rest =>
      match classify a with
      | WPlain => Some ([], args)
      | WEnd => Some ([], rest)
      | WOpt None => None
      | WOpt (Some (l, None)) =>
          match getopt rest with
          | Some (l', r) => Some (l ++ l', r)
          | None => None
          end
      | WOpt (Some (l, Some k)) =>
          match rest with
          | [] => None
          | b :: rest' =>
              match getopt rest' with
              | Some (l', r) => Some (l ++ (k, b) :: l', r)
              | None => None
              end
          end
      end
  end.

(** ** Settings (utils.py 490-504) *)

Record settings : Type := mkSet {
  s_in : string; s_out : string; s_foresta : option string; s_err : option string
}.

(** utils.py 490. *)
Definition defaults0 : settings := mkSet "input.xlsx" "output.xlsx" None None.

(** utils.py 491-504; [None] is [sys.exit()] at -h. *)
Fixpoint settle_opts (l : list (okey * string)) (s : settings) : option settings :=
  match l with
  | [] => Some s
  | (k, a) :: l' =>
      match k with
      | KHelp => None
      | KInput => settle_opts l' (mkSet a (s_out s) (s_foresta s) (s_err s))
      | KOutput => settle_opts l' (mkSet (s_in s) a (s_foresta s) (s_err s))
      | KForesta => settle_opts l' (mkSet (s_in s) (s_out s) (Some a) (s_err s))
      | KErrors => settle_opts l' (mkSet (s_in s) (s_out s) (s_foresta s) (Some a))
      end
  end.

(** Truth of a string that may be None (utils.py 506, 514, 573). *)
Definition truthy (s : option string) : option string :=
  match s with Some EmptyString => None | _ => s end.

(** ** Formats (utils.py 614-658) *)

Inductive fmt : Type := FJson | FXls | FDb | FSql | FMdb | FCsv.

(** [s.endswith(e)] (utils.py 555, 617-658). *)
Definition ends_with (e s : string) : bool :=
  (String.length e <=? String.length s)%nat
  && String.eqb (String.substring (String.length s - String.length e) (String.length e) s) e.

(** utils.py 509-511 *)
Definition recognized (tic : bool) : list string :=
  [".json"; ".xls"; ".xlsx"; ".db"] ++ (if tic then [".sql"; ".mdb"; ".accdb"] else []).

(** utils.py 555 [file_or_dir] == "file" *)
Definition is_file (tic : bool) (p : string) : bool := existsb (fun e => ends_with e p) (recognized tic).

(** utils.py 617-631: the first test that succeeds. *)
Definition read_file_fmt (p : string) : option fmt :=
  if ends_with ".json" p then Some FJson
  else if ends_with ".xls" p || ends_with ".xlsx" p then Some FXls
  else if ends_with ".db" p then Some FDb
  else if ends_with ".sql" p then Some FSql
  else if ends_with ".mdb" p || ends_with ".accdb" p then Some FMdb
  else None.

(** utils.py 616-634 [inner_f]: the format it reads; [None]: it returns None. *)
Definition read_fmt (isfile isdir : string -> bool) (tic : bool) (p : string) : option fmt :=
  if isfile p && is_file tic p then read_file_fmt p
  else if isdir p && negb (is_file tic p) then Some FCsv
  else None.

(** utils.py 642-651: the last test that succeeds. *)
Definition last_fmt (p : string) : option fmt :=
  let w := None in
  let w := if ends_with ".json" p then Some FJson else w in
  let w := if ends_with ".xls" p || ends_with ".xlsx" p then Some FXls else w in
  let w := if ends_with ".db" p then Some FDb else w in
  let w := if ends_with ".sql" p then Some FSql else w in
  if ends_with ".mdb" p || ends_with ".accdb" p then Some FMdb else w.

(** utils.py 639-658: [file] was decided with the extensions of the engine ([is_file]); [tic_writer]: the
    schema written with is a TicDatFactory.  PanDatFactory.sql has no [write_sql_file] and
    PanDatFactory no [mdb] (AttributeError). *)
Definition write_fmt (tic_writer file : bool) (p : string) : option fmt :=
  if file then
    match last_fmt p with
    | Some FSql => if tic_writer then Some FSql else None
    | Some FMdb => if tic_writer then Some FMdb else None
    | o => o
    end
  else Some FCsv.

(** ** The run *)

Section Run.
  Variable D S : Type.

  (** What [solve] returns: something falsy, a pair whose first part is a message, an object, or
      something whose truth value cannot be taken (604). *)
  Inductive result : Type :=
  | RFalsy : result
  | RSln : S -> result
  | RPair : result -> result
  | RBad : result.

  (** utils.py 514-553: what the Foresta file asks for. *)
  Inductive fmode : Type := MUploadSolve | MUpload | MDownload.

  (** What a run does to the outside, utils.py 514-612. *)
  Inductive event : Type :=
  | EIncompatible : event
  | ECheckDups : fmt -> string -> event
  | ERead : fmt -> string -> event
  | EIntegrity : option D -> event
  | EWriteErr : fmt -> string -> event
  | ESolve : option D -> event
  | EUpload : option D -> event
  | ERemoteSolve : event
  | EDownload : event
  | EWriteSln : fmt -> string -> S -> event
  | ENoSolution : event.

  (** How [standard_main] ends: it returns or raises, utils.py 424-612. *)
  Inductive ending : Type := Finished | Usage : nat -> ending | Crashed.

  (** Events and ending of utils.py 424-612. *)
  Definition trace : Type := (list event * ending)%type.

  (** An event before the rest of a run, utils.py 514-612. *)
  Definition say (e : event) (t : trace) : trace := (e :: fst t, snd t).

  Variable tic : bool.
  Variables exists_ isfile isdir : string -> bool.
  (** [find_duplicates(path)]: raises, or whether there are any. *)
  Variable dups : fmt -> string -> option bool.
  Variable read : fmt -> string -> option D.
  (** utils.py 575-579: [_integrity_solve] raises, or the number of errors. *)
  Variable integrity : D -> option nat.
  Variable solve : option D -> option result.
  (** The Foresta file: not a file; unusable; a mode (514-553). *)
  Variable foresta : string -> option (option fmode).
  (** What the Foresta calls return; [None]: they raise. *)
  Variable remote : option D -> option result.
  Variable upload : option D -> bool.
  Variable download : option result.

  (** utils.py 614-637; [k] is what follows. *)
  Definition get_dat (p : string) (k : D -> trace) : trace :=
    match read_fmt isfile isdir tic p with
    | None => ([], Crashed)
    | Some f =>
        let reading : trace := match read f p with
                       | Some d => say (ERead f p) (k d)
                       | None => ([], Crashed)
                       end in
        if tic && negb (match f with FSql => true | _ => false end) then
          match dups f p with
          | Some false => say (ECheckDups f p) reading
          | _ => ([ECheckDups f p], Crashed)
          end
        else reading
    end.

  (** utils.py 604-612; [writer] is (write_sln_func, output_file). *)
  Definition finish (writer : option (fmt * string)) (sln : result) : trace :=
    match sln with
    | RFalsy => ([ENoSolution], Finished)
    | RSln s => match writer with
                | Some (f, p) => ([EWriteSln f p s], Finished)
                | None => ([], Crashed)
                end
    | RPair _ => ([], Crashed)
    | RBad => ([], Crashed)
    end.

  (** utils.py 592-596: a container of length two is taken apart, once. *)
  Definition unpack (r : result) : result := match r with RPair r' => r' | _ => r end.

  (** utils.py 590-602 *)
  Definition solving (mode : option fmode) (input output : option string) (writer : option (fmt * string)) (dat : option D) : trace :=
    match mode with
    | None => say (ESolve dat) (match solve dat with Some r => finish writer (unpack r) | None => ([], Crashed) end)
    | Some m =>
        match output with
        | Some _ =>
            match m with
            | MDownload =>
                (** [foresta_based_solve( *([dat] if input_file else []))]; here [input_file] is None. *)
                say EDownload (match download with Some r => finish writer r | None => ([], Crashed) end)
            | MUploadSolve =>
                match input with
                | Some _ => say (EUpload dat) (say ERemoteSolve (match remote dat with Some r => finish writer r | None => ([], Crashed) end))
                | None => ([], Crashed) (** a missing argument *)
                end
            | MUpload => ([], Crashed) (** not reached: the output is None *)
            end
        | None =>
            match m with
            | MDownload => ([], Crashed) (** one argument too many *)
            | MUploadSolve =>
                say (EUpload dat) (say ERemoteSolve (match remote dat with Some _ => ([], Finished) | None => ([], Crashed) end))
            | MUpload => say (EUpload dat) (if upload dat then ([], Finished) else ([], Crashed))
            end
        end
    end.

  (** utils.py 573-588 *)
  Definition checking (err : option string) (dat : option D) (k : trace) : trace :=
    match err with
    | None => k
    | Some e =>
        say (EIntegrity dat)
        match dat with
        | None => ([], Crashed)
        | Some d =>
            match integrity d, write_fmt false (is_file tic e) e with
            | Some n, Some f => say (EWriteErr f e) (match n with O => k | _ => ([], Finished) end)
            | _, _ => ([], Crashed)
            end
        end
    end.

  (** utils.py 555-612 *)
  Definition working (mode : option fmode) (input output err : option string) : trace :=
    let go (dat : option D) : trace :=
      match output with
      | None => checking err dat (solving mode input None None dat)
      | Some o =>
          match write_fmt tic (is_file tic o) o with
          | None => ([], Crashed)
          | Some f => checking err dat (solving mode input output (Some (f, o)) dat)
          end
      end in
    match input with
    | None => go None
    | Some p => if exists_ p then get_dat p (fun d => go (Some d)) else ([], Finished)
    end.

  (** utils.py 506-553: [input_file] and [output_file] may be replaced by None. *)
  Definition run (s : settings) : trace :=
    let input := truthy (Some (s_in s)) in
    let output := truthy (Some (s_out s)) in
    let err := truthy (s_err s) in
    match truthy (s_foresta s) with
    | None => working None input output err
    | Some f =>
        let warn (t : trace) : trace := match err with Some _ => say EIncompatible t | None => t end in
        warn match foresta f with
             | None => ([], Finished)
             | Some None => ([], Crashed)
             | Some (Some MUploadSolve) => working (Some MUploadSolve) input output err
             | Some (Some MUpload) => working (Some MUpload) input None err
             | Some (Some MDownload) => working (Some MDownload) None output err
             end
    end.

  (** utils.py 484-504 and the rest; [argv] is [sys.argv[1:]]. *)
  Definition main (argv : list string) : trace :=
    match getopt argv with
    | None => ([], Usage 2)
    | Some (opts, _) =>
        match settle_opts opts defaults0 with
        | None => ([], Usage 0)
        | Some s => run s
        end
    end.
End Run.
