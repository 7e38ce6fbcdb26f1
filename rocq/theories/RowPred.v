(** * Row predicates: ticdatfactory.py 1963-2097 and pandatfactory.py
      1248-1398 ([find_data_row_failures]), utils.py 38-75 ([faster_df_apply]),
      ticdatfactory.py 1395-1401 ([_convert_dat]).

    Predicates, predicate_kwargs_maker functions and convert_dat are arbitrary
    functions that may raise ([called]); they are assumed not to change the
    data.  Results of predicates are cells.  Not modelled: the checks on the
    arguments (1997-2002) other than the bound on failures. *)
From Coq Require Import ZArith Bool List String Arith DecimalString.
From Verif Require Import PyVal PyDict TypeDict Data FindTypes FK Factory InfIO Params.
Import ListNotations.
Local Open Scope string_scope.
Local Open Scope list_scope.

(** A call of a client's function: a result or an exception with its text (ticdatfactory.py 2060-2074). *)
Inductive called (A : Type) : Type :=
| Returned : A -> called A
| Raised : string -> called A.
Arguments Returned {A} _.
Arguments Raised {A} _.

(** [f"Exception<{e}>"] (ticdatfactory.py 2060-2074). *)
Definition exc_text (m : string) : string := "Exception<" ++ m ++ ">".

(** What a predicate_kwargs_maker hands back: a dict, a string, something else (ticdatfactory.py 2043-2056). *)
Inductive kwres (K : Type) : Type :=
| KDict : K -> kwres K
| KText : string -> kwres K
| KOther : kwres K.
Arguments KDict {K} _.
Arguments KText {K} _.
Arguments KOther {K}.

(** A predicate: a client's function or the check of 2006-2010. *)
Inductive pfun : Type :=
| PUser : nat -> pfun
| PParam : pfun.

(** [RowPredicateInfo], ticdatfactory.py 263-319. *)
Record rpi : Type := mkRpi { r_fn : pfun; r_maker : option nat; r_resp : string }.

(** Keys of the report: (table, predicate_name) (ticdatfactory.py 2076-2097). *)
Definition tpn : Type := (string * value)%type.
(** Equality of such keys, ticdatfactory.py 2076-2097. *)
Definition tpn_eqb (a b : tpn) : bool := String.eqb (fst a) (fst b) && pyeq (snd a) (snd b).

(** Values of the report: [PKEM('*', msg)], or a set of failed rows, each with
    a message ("Error Message") or without ("Boolean") (ticdatfactory.py 2080-2097). *)
Inductive entry : Type :=
| EAll : string -> entry
| ERows : list (rowid * option string) -> entry.

(** utils.py: the substring test [a in b]. *)
Definition contains (a b : string) : bool :=
  match String.index 0 a b with Some _ => true | None => false end.

(** [f"{i}"] for an int from count() (ticdatfactory.py 2011-2014). *)
Definition show_nat (i : nat) : string := DecimalString.NilEmpty.string_of_uint (Nat.to_uint i).

(** ticdatfactory.py 2011-2014: the name of the parameter check. *)
Definition check_name : string := "Good Name/Value Check".
(** The name of the parameters check: the first not in use, ticdatfactory.py 2011-2014. *)
Definition fresh_check (d : list (value * rpred)) : value :=
  if dmem pyeq d (VStr check_name) then
    match find (fun i => negb (dmem pyeq d (VStr (check_name ++ "_" ++ show_nat i)))) (seq 0 (S (List.length d))) with
    | Some i => VStr (check_name ++ "_" ++ show_nat i)
    | None => VNone
    end
  else VStr check_name.

(** ticdatfactory.py 2003-2017: the client's predicates and the parameter check. *)
Definition all_preds (f : factory) : list (string * list (value * rpi)) :=
  let user := map (fun tp => (fst tp, map (fun np => (fst np, mkRpi (PUser (p_fn (snd np))) (p_maker (snd np)) (p_resp (snd np))))
                                        (snd tp))) (f_preds f) in
  if has_params f then
    let d := dget_or String.eqb (f_preds f) "parameters" [] in
    dset String.eqb user "parameters"
      (dset pyeq (dget_or String.eqb user "parameters" []) (fresh_check d) (mkRpi PParam None "Boolean"))
  else user.

Section Find.
  Variables K D : Type.
  Variable no_kw : K.                                        (** [{}] *)
  Variable pred : nat -> list (string * value) -> K -> called value.
  Variable maker : nat -> D -> called (kwres K).
  Variable convert : called (D + string).                    (** [self._convert_dat[0](tic_dat)]; it may return a string *)
  Variable converted : tpn -> bool.                          (** [(tbl, pn) in self._convert_dat[1]] *)
  Variable self : D.                                         (** the dat itself *)
  Variable show : value -> string.                           (** [str] *)
  Variable good_param : list (string * value) -> value.      (** ticdatfactory.py 2006-2010 *)
  Variable handled : bool.                                   (** exception_handling == "Handled as Failure" *)

  (** [rpi.predicate(row, **kwargs)] (ticdatfactory.py 2060-2074). *)
  Definition call_pred (p : pfun) (row : list (string * value)) (k : K) : called value :=
    match p with PUser n => pred n row k | PParam => Returned (good_param row) end.

  (** ticdatfactory.py 2021-2023 and the local variables of [populate_rtn]. *)
  Record fstate : Type := mkFS {
    s_conv : option (D + string);
    s_memo : list (nat * kwres K);
    s_rtn : list (tpn * entry);
    s_count : nat;
    s_raised : bool
  }.

  (** A state in which an exception has been raised, ticdatfactory.py 2030-2096. *)
  Definition s_raise (s : fstate) : fstate := mkFS (s_conv s) (s_memo s) (s_rtn s) (s_count s) true.

  (** ticdatfactory.py 2033-2040 *)
  Definition ensure_converted (s : fstate) : fstate :=
    match s_conv s with
    | Some _ => s
    | None =>
        match convert with
        | Returned c => mkFS (Some c) (s_memo s) (s_rtn s) (s_count s) (s_raised s)
        | Raised m => if handled then mkFS (Some (inr (exc_text m))) (s_memo s) (s_rtn s) (s_count s) (s_raised s)
                      else s_raise s
        end
    end.

  (** ticdatfactory.py 2043-2050: a call of the maker. *)
  Definition make_kwargs (s : fstate) (uses : bool) (n : nat) : called (kwres K) :=
    let on d := match maker n d with
                | Returned r => Returned r
                | Raised m => if handled then Returned (KText (exc_text m)) else Raised m
                end in
    if uses then
      match s_conv s with
      | Some (inr m) => Returned (KText m)
      | Some (inl d) => on d
      | None => Raised ""  (* 2042: IndexError; cannot happen after 2033-2040 *)
      end
    else on self.

  (** ticdatfactory.py 2030-2052: the kwargs of a predicate; a raised exception shows in the state. *)
  Definition kwargs (s : fstate) (tp : tpn) (r : rpi) : fstate * kwres K :=
    match r_maker r with
    | None => (s, KDict no_kw)
    | Some n =>
        let uses := converted tp in
        let s1 := if uses then ensure_converted s else s in
        if s_raised s1 then (s1, KOther)
        else
          match dget Nat.eqb (s_memo s1) n with
          | Some kw => (s1, kw)
          | None =>
              match make_kwargs s1 uses n with
              | Returned kw => (mkFS (s_conv s1) (dset Nat.eqb (s_memo s1) n kw) (s_rtn s1) (s_count s1) (s_raised s1), kw)
              | Raised _ => (s_raise s1, KOther)
              end
          end
    end.

  (** ticdatfactory.py 2054-2056: the message of a failed maker. *)
  Definition kw_message (kw : kwres K) : option string :=
    match kw with
    | KDict _ => None
    | KText m => Some (if contains "Exception<" m then m else "predicate_kwargs_maker failed to return a dict")
    | KOther => Some "predicate_kwargs_maker failed to return a dict"
    end.

  (** ticdatfactory.py 2060-2074 [_p]. *)
  Definition guarded (r : rpi) (c : called value) : called value :=
    match c with
    | Returned v => Returned v
    | Raised m => if handled
                  then Returned (if String.eqb (r_resp r) "Boolean" then VBool false else VStr (exc_text m))
                  else Raised m
    end.

  (** ticdatfactory.py 2076-2084: is the result of the predicate a failure, and its message. *)
  Definition judged (r : rpi) (v : value) : option (option string) :=
    if String.eqb (r_resp r) "Boolean" then (if truthy v then None else Some None)
    else if String.eqb (r_resp r) "Error Message" then
      (match v with VBool true => None | _ => Some (Some (show v)) end)
    else None.

  (** Assignment of the report in the state, ticdatfactory.py 2076-2096. *)
  Definition with_rtn (s : fstate) (rtn : list (tpn * entry)) : fstate :=
    mkFS (s_conv s) (s_memo s) rtn (S (s_count s)) (s_raised s).

  (** [rtn[tbl, pn].add(..)] of a defaultdict(set).  Rows are visited once, so
      adding appends (ticdatfactory.py 2076-2084). *)
  Definition add_row (rtn : list (tpn * entry)) (tp : tpn) (x : rowid * option string) : list (tpn * entry) :=
    match dget tpn_eqb rtn tp with
    | Some (ERows l) => dset tpn_eqb rtn tp (ERows (l ++ [x]))
    | Some (EAll _) => rtn  (* a PKEM has no [add]: cannot happen, each pair is visited once *)
    | None => dset tpn_eqb rtn tp (ERows [x])
    end.

  (** ticdatfactory.py 2086-2096: what the loop over a table passes to the predicate. *)
  Definition pred_rows (ts : tschema) (tb : table) : list (rowid * list (string * value)) :=
    map (fun x => match x with
                  | (rid, k, r) => (rid, match tb with Keyed _ => full_row ts k r | Listed _ => combine (tdf ts) r end)
                  end) (rows_of tb).

  (** ticdatfactory.py 2076-2096 for one row. *)
  Definition row_step (mx : num) (tp : tpn) (r : rpi) (k : K) (x : rowid * list (string * value)) (s : fstate)
    : fstate * bool :=
    match guarded r (call_pred (r_fn r) (snd x) k) with
    | Raised _ => (s_raise s, true)
    | Returned v =>
        match judged r v with
        | None => (s, false)
        | Some m => let s' := with_rtn s (add_row (s_rtn s) tp (fst x, m)) in (s', trips mx (s_count s'))
        end
    end.

  (** ticdatfactory.py 2029-2096 for one predicate. *)
  Definition pred_step (mx : num) (sch : schema) (d : dat) (t : string) (np : value * rpi) (s : fstate) : fstate * bool :=
    let tp := (t, fst np) in
    let (s1, kw) := kwargs s tp (snd np) in
    if s_raised s1 then (s1, true)
    else
      match kw, kw_message kw with
      | KDict k, _ => for_each (row_step mx tp (snd np) k) (pred_rows (ts_of sch t) (d t)) s1
      | _, Some m => let s' := with_rtn s1 (dset tpn_eqb (s_rtn s1) tp (EAll m)) in (s', trips mx (s_count s'))
      | _, None => (s1, false)
      end.

  (** ticdatfactory.py 1963-2097 over the predicates [l].  Raise: the assertion of 2000 or an
      unhandled exception. *)
  Definition find_rows (l : list (string * list (value * rpi))) (sch : schema) (d : dat) (mx : num)
    : outcome (list (tpn * entry)) :=
    if num_ltb (of_int 0) mx then
      let (s, _) := for_each (fun tp => for_each (pred_step mx sch d (fst tp)) (snd tp)) l
                      (mkFS None [] [] 0 false) in
      if s_raised s then Raise else Ret (s_rtn s)
    else Raise.

  (** ** PanDat *)

  (** utils.py 38-75.  [func] may change after every row; [check] sees each
      result and the state it keeps. *)
  Fixpoint df_apply {R X S} (func : R -> called X) (check : option (X -> S -> S * option (R -> called X)))
    (rows : list R) (st : S) : called (list X) * S :=
    match rows with
    | [] => (Returned [], st)
    | r :: rows' =>
        match func r with
        | Raised m => (Raised m, st)
        | Returned x =>
            let '(func', check', st') :=
              match check with
              | None => (func, check, st)
              | Some c => match c x st with
                          | (st1, Some g) => (g, None, st1)
                          | (st1, None) => (func, check, st1)
                          end
              end in
            match df_apply func' check' rows' st' with
            | (Returned xs, st2) => (Returned (x :: xs), st2)
            | (Raised m, st2) => (Raised m, st2)
            end
        end
    end.

  (** pandatfactory.py 1290-1302: the trip wires; [st] is [number_failures]. *)
  Definition check_bool (mx : num) : option (bool -> nat -> nat * option (list (string * value) -> called bool)) :=
    if num_ltb mx PInf then
      Some (fun (bad : bool) (c : nat) => if bad then (S c, if num_leb mx (of_int (Z.of_nat (S c))) then Some (fun _ => Returned false) else None)
                         else (c, None))
    else None.
  (** pandatfactory.py 1290-1302: what a predicate's result says about its row. *)
  Definition check_msg (mx : num) : option (value -> nat -> nat * option (list (string * value) -> called value)) :=
    if num_ltb mx PInf then
      Some (fun (v : value) (c : nat) => match v with
                       | VBool true => (c, None)
                       | _ => (S c, if num_leb mx (of_int (Z.of_nat (S c))) then Some (fun _ => Returned (VBool true)) else None)
                       end)
    else None.

  (** The rows that a boolean Series selects, by position (pandatfactory.py 1375-1398). *)
  Definition select {A B} (l : list A) (w : list B) (bad : B -> bool) : list (A * B) :=
    filter (fun ab => bad (snd ab)) (combine l w).

  (** pandatfactory.py 1361-1393: the entry for a predicate whose kwargs are a dict, and
      [number_failures] afterwards. *)
  Definition pan_entry (mx : num) (r : rpi) (k : K) (rows : list (rowid * list (string * value))) (c : nat)
    : called (option entry) * nat :=
    let run (x : list (string * value)) := call_pred (r_fn r) x k in
    if String.eqb (r_resp r) "Boolean" then
      let bad (x : list (string * value)) := match run x with
                   | Returned v => Returned (negb (truthy v))
                   | Raised m => if handled then Returned true else Raised m
                   end in
      match df_apply bad (check_bool mx) (map snd rows) c with
      | (Raised m, c') => (Raised m, c')
      | (Returned w, c') =>
          (Returned (if existsb (fun b => b) w
                     then Some (ERows (map (fun ab => (fst ab, None)) (select (map fst rows) w (fun b => b))))
                     else None), c')
      end
    else
      match df_apply (fun x => guarded r (run x)) (check_msg mx) (map snd rows) c with
      | (Raised m, c') => (Raised m, c')
      | (Returned w, c') =>
          let bad (v : value) := match v with VBool true => false | _ => true end in
          (Returned (if existsb bad w
                     then Some (ERows (map (fun ab => (fst ab, Some (show (snd ab)))) (select (map fst rows) w bad)))
                     else None), c')
      end.

  (** pandatfactory.py 1331-1398 for one predicate; 1394-1395: the bound is looked at after each
      predicate. *)
  Definition pan_step (mx : num) (sch : schema) (d : dat) (t : string) (np : value * rpi) (s : fstate) : fstate * bool :=
    let tp := (t, fst np) in
    let (s1, kw) := kwargs s tp (snd np) in
    if s_raised s1 then (s1, true)
    else
      let s2 :=
        match kw, kw_message kw with
        | KDict k, _ =>
            match pan_entry mx (snd np) k (pred_rows (ts_of sch t) (d t)) (s_count s1) with
            | (Raised _, c) => s_raise s1
            | (Returned None, c) => mkFS (s_conv s1) (s_memo s1) (s_rtn s1) c (s_raised s1)
            | (Returned (Some e), c) => mkFS (s_conv s1) (s_memo s1) (dset tpn_eqb (s_rtn s1) tp e) c (s_raised s1)
            end
        | _, Some m => with_rtn s1 (dset tpn_eqb (s_rtn s1) tp (EAll m))
        | _, None => s1
        end in
      (s2, s_raised s2 || (num_ltb mx PInf && num_leb mx (of_int (Z.of_nat (s_count s2))))).

  (** pandatfactory.py 1248-1398 [find_data_row_failures]. *)
  Definition pan_find_rows (l : list (string * list (value * rpi))) (sch : schema) (d : dat) (mx : num)
    : outcome (list (tpn * entry)) :=
    if num_ltb (of_int 0) mx then
      let (s, _) := for_each (fun tp => for_each (pan_step mx sch d (fst tp)) (snd tp)) l
                      (mkFS None [] [] 0 false) in
      if s_raised s then Raise else Ret (s_rtn s)
    else Raise.
End Find.

Arguments s_raised {K D} _.
Arguments s_rtn {K D} _.

(** ticdatfactory.py 2006-2010: the check of a row of the parameters table. *)
Definition good_parameter (parses : value -> bool) (f : factory) (row : list (string * value)) : value :=
  match ts_of (plain_schema f) "parameters" with
  | mkT [p] [x] =>
      match dget pyeq (f_params f) (dget_or String.eqb row p VNone) with
      | None => VNone
      | Some (None, _) => VBool true
      | Some (Some dt, _) => VBool (valid_data parses dt (dget_or String.eqb row x VNone))
      end
  | _ => VNone
  end.

(** ** [_convert_dat] (929, 1395-1401) *)

(** The predicates to be converted: none without convert_dat (ticdatfactory.py 1395-1401). *)
Definition convset := option (list tpn).
(** ticdatfactory.py 1395-1401. *)
Definition is_converted (c : convset) (tp : tpn) : bool :=
  match c with Some l => existsb (tpn_eqb tp) l | None => false end.

(** ticdatfactory.py 1397-1399: the copied predicates that have a maker. *)
Definition clone_convset (g : factory) : list tpn :=
  flat_map (fun tp => map (fun np => (fst tp, fst np))
                        (filter (fun np => match p_maker (snd np) with Some _ => true | None => false end) (snd tp)))
    (f_preds g).
