(** * Property theorems: C34 - C36, C56, C67, C68 (infinity flagging and
      the parameters table). *)
From Coq Require Import ZArith Bool List String.
From Verif Require Import PyVal PyDict TypeDict Data FindTypes Factory InfIO InfIOFacts PanIOFacts Params ParamsFacts InfWitness.
Import ListNotations.
Local Open Scope string_scope.
Local Open Scope list_scope.

(** C34: one factory writes the cell, another with the same settings reads it
    back; [reached] says that any history of calls may have gone before. *)

(** Numeric flag [m]: both infinities and every number below [m] in
    magnitude, and everything that is no number. *)
Theorem C34_numeric_flag : forall date_of float_of s s' t x v m,
  reached date_of float_of s -> reached date_of float_of s' -> io_fac s = io_fac s' ->
  is_table (io_fac s) t = true -> t <> "parameters" ->
  f_flag (io_fac s) = VNum m -> good_flag (VNum m) = true ->
  kept date_of float_of (io_fac s) t x v ->
  (forall n, v = VNum n -> n = PInf \/ n = NInf ->
     kept date_of float_of (io_fac s) t x (VNum m) /\ kept date_of float_of (io_fac s) t x (VNum (num_opp m))) ->
  (forall n, v = VNum n -> n = PInf \/ n = NInf \/ within m n) ->
  exists w, fst (write_cell date_of s t x v) = Ret w /\ fst (read_cell date_of float_of s' t x w) = Ret v.
Proof. exact round_trip_numeric. Qed.
Print Assumptions C34_numeric_flag.

(** Numbers at or beyond the flag are read back as infinities. *)
Theorem C34_beyond_flag : forall date_of float_of s s' t x m n,
  reached date_of float_of s -> reached date_of float_of s' -> io_fac s = io_fac s' ->
  is_table (io_fac s) t = true -> t <> "parameters" ->
  f_flag (io_fac s) = VNum m -> good_flag (VNum m) = true ->
  kept date_of float_of (io_fac s) t x (VNum m) -> kept date_of float_of (io_fac s) t x (VNum (num_opp m)) ->
  (num_leb m n = true ->
   exists w, fst (write_cell date_of s t x (VNum n)) = Ret w /\
             fst (read_cell date_of float_of s' t x w) = Ret (VNum PInf)) /\
  (num_leb n (num_opp m) = true ->
   exists w, fst (write_cell date_of s t x (VNum n)) = Ret w /\
             fst (read_cell date_of float_of s' t x w) = Ret (VNum NInf)).
Proof. exact beyond_flag. Qed.
Print Assumptions C34_beyond_flag.

(** None flag: every valid cell, unless writing raises. *)
Theorem C34_none_flag : forall date_of float_of s s' t x v,
  reached date_of float_of s -> reached date_of float_of s' -> io_fac s = io_fac s' ->
  is_table (io_fac s) t = true -> t <> "parameters" -> f_flag (io_fac s) = VNone ->
  kept date_of float_of (io_fac s) t x v ->
  (forall dt, field_type (io_fac s) t x = Some dt -> valid_data (is_date date_of) dt v = true) ->
  fst (write_cell date_of s t x v) <> Raise ->
  exists w, fst (write_cell date_of s t x v) = Ret w /\ fst (read_cell date_of float_of s' t x w) = Ret v.
Proof. exact round_trip_none. Qed.
Print Assumptions C34_none_flag.

(** Writing raises exactly for the fields that allow both infinities but not
    None. *)
Theorem C34_none_flag_raises : forall date_of float_of s t x v,
  reached date_of float_of s -> is_table (io_fac s) t = true -> t <> "parameters" -> f_flag (io_fac s) = VNone ->
  fst (write_cell date_of s t x v) = Raise <->
  exists dt, field_type (io_fac s) t x = Some dt /\ number_allowed dt = true /\
    valid_data (is_date date_of) dt VNone = false /\
    valid_data (is_date date_of) dt (VNum PInf) = true /\ valid_data (is_date date_of) dt (VNum NInf) = true.
Proof. exact none_flag_raises. Qed.
Print Assumptions C34_none_flag_raises.

Theorem C34_no_flag : forall date_of float_of s s' t x v,
  io_fac s = io_fac s' -> is_table (io_fac s) t = true -> t <> "parameters" ->
  f_flag (io_fac s) = VStr "N/A" -> kept date_of float_of (io_fac s) t x v -> reached date_of float_of s' ->
  exists w, fst (write_cell date_of s t x v) = Ret w /\ fst (read_cell date_of float_of s' t x w) = Ret v.
Proof. exact round_trip_na. Qed.
Print Assumptions C34_no_flag.

(** Whatever the flag, a cell of a datetime field that denotes a date comes
    back as that datetime. *)
Theorem C34_dates : forall date_of float_of s s' t x v dt d w,
  reached date_of float_of s -> reached date_of float_of s' -> io_fac s = io_fac s' ->
  is_table (io_fac s) t = true -> t <> "parameters" ->
  field_type (io_fac s) t x = Some dt -> datetime dt = true -> is_null v = false -> adjust date_of v = Some d ->
  fst (write_cell date_of s t x v) = Ret w ->
  fst (read_cell date_of float_of s' t x w) = Ret (VDate d).
Proof. exact dates_read. Qed.
Print Assumptions C34_dates.

Example C34_numeric_ex :
  is_table (io_fac (wi_st wi_big)) "items" = true /\ f_flag (io_fac (wi_st wi_big)) = wi_big /\
  good_flag wi_big = true /\
  (forall v, kept wi_date wi_float (wi_fac wi_big) "items" "Cap" v) /\
  (forall v, kept wi_date wi_float (wi_fac wi_big) "items" "Cost" v) /\
  within (of_int 1000) (of_int 999) /\
  fst (write_cell wi_date (wi_st wi_big) "items" "Cap" (VNum PInf)) = Ret wi_big /\
  fst (write_cell wi_date (wi_st wi_big) "items" "Cap" (VNum (of_int 999))) = Ret (VNum (of_int 999)).
Proof. exact wi_numeric. Qed.

Example C34_none_ex :
  f_flag (io_fac (wi_st VNone)) = VNone /\
  fst (write_cell wi_date (wi_st VNone) "items" "Cap" (VNum PInf)) = Ret VNone /\
  (exists dt, field_type (wi_fac VNone) "items" "Cap" = Some dt /\ valid_data (is_date wi_date) dt (VNum PInf) = true /\
     valid_data (is_date wi_date) dt (VNum (of_int 3)) = true) /\
  fst (write_cell wi_date (wi_st VNone) "items" "Cap" (VNum (of_int 3))) = Ret (VNum (of_int 3)) /\
  fst (read_cell wi_date wi_float (wi_st VNone) "items" "Cap" VNone) = Ret (VNum PInf) /\
  fst (read_cell wi_date wi_float (wi_st VNone) "items" "Day" (VStr "2020-01-01")) = Ret (VDate 5).
Proof. exact wi_none. Qed.

Example C34_raises_ex :
  let f := run (fun _ => false) wi_f0 [OSetType "items" "Cap" wi_any; OFlag VNone] in
  fst (write_cell wi_date (mkIO f []) "items" "Cap" (VNum (of_int 1))) = Raise.
Proof. exact wi_both. Qed.

(** C35: without [add_parameter] the parameters table is flagged on writing
    but not unflagged on reading, so an infinite parameter is lost. *)
Theorem C35_parameters_flagged_refuted : exists date_of float_of f x v w,
  (exists f0 ops, init wi_decl = Some f0 /\ f = run (is_date date_of) f0 ops) /\
  is_table f "parameters" = true /\
  fst (write_cell date_of (mkIO f []) "parameters" x v) = Ret w /\
  fst (read_cell date_of float_of (mkIO f []) "parameters" x w) = Ret w /\ w <> v.
Proof.
  exists wi_date, wi_float, (wi_fac wi_big), "Value", (VNum PInf), wi_big.
  split; [exact wi_fac_reach|]. split; [reflexivity|]. exact wi_params_refuted.
Qed.
Print Assumptions C35_parameters_flagged_refuted.

(** Reading never touches the parameters table. *)
Theorem C35_parameters_read : forall date_of float_of s x v,
  is_table (io_fac s) "parameters" = true ->
  fst (read_cell date_of float_of s "parameters" x v) = Ret v.
Proof. exact params_read. Qed.
Print Assumptions C35_parameters_read.

(** Once [add_parameter] has been used writing does not flag either: nulls
    are written as None and everything else as it is. *)
Theorem C35_parameters_write : forall date_of s x v, f_params (io_fac s) <> [] ->
  fst (write_cell date_of s "parameters" x v) = Ret (if is_null v then VNone else v).
Proof. exact params_write. Qed.
Print Assumptions C35_parameters_write.

(** C36: what is read and written depends on the current settings only, not
    on what earlier calls left in the cache. *)
Theorem C36_cache_invisible : forall date_of float_of s t x v, reached date_of float_of s ->
  fst (read_cell date_of float_of s t x v) = fst (read_cell date_of float_of (mkIO (io_fac s) []) t x v) /\
  fst (write_cell date_of s t x v) = fst (write_cell date_of (mkIO (io_fac s) []) t x v).
Proof. exact cache_invisible. Qed.
Print Assumptions C36_cache_invisible.

(** In particular a cell is replaced by None exactly as the current type of
    its field says. *)
Theorem C36_current_type_decides : forall date_of float_of s t x v,
  reached date_of float_of s -> is_table (io_fac s) t = true -> t <> "parameters" -> f_flag (io_fac s) = VNone ->
  fst (write_cell date_of s t x v) <> Raise ->
  fst (write_cell date_of s t x v) = Ret VNone <->
  (v = VNone \/
   exists b dt, v = inf_of b /\ field_type (io_fac s) t x = Some dt /\ number_allowed dt = true /\
    valid_data (is_date date_of) dt VNone = false /\ valid_data (is_date date_of) dt (inf_of b) = true /\
    valid_data (is_date date_of) dt (inf_of (negb b)) = false).
Proof. exact none_flag_exact. Qed.
Print Assumptions C36_current_type_decides.

(** The cache is in use, and the type changes while it is. *)
Example C36_ex :
  io_cache (irun wi_date wi_float (mkIO wi_f0 []) (firstn 3 wi_hist)) <> [] /\
  fst (read_cell wi_date wi_float (irun wi_date wi_float (mkIO wi_f0 []) wi_hist) "items" "Cap" VNone) = Ret (VNum NInf) /\
  fst (read_cell wi_date wi_float (irun wi_date wi_float (mkIO wi_f0 []) (firstn 3 wi_hist)) "items" "Cap" VNone) = Ret (VNum PInf).
Proof. exact wi_hist_cached. Qed.

(** C56: the full parameters dictionary looks every name up in the table
    first and in the declared parameters (whose datetime defaults are
    coerced) second. *)
Theorem C56_full_parameters_exact : forall date_of f tb r, NoDup (map fst tb) ->
  create_full date_of f tb = Some r ->
  forall k v, dget pyeq r k = Some v <->
    (exists k', pyeq k' k = true /\ In (k', v) tb) \/
    ((forall k' w, In (k', w) tb -> pyeq k' k = false) /\
     exists td dv, dget pyeq (f_params f) k = Some (td, dv) /\
      ((exists dt d, td = Some dt /\ datetime dt = true /\ adjust date_of dv = Some d /\ v = VDate d) \/
       (~ (exists dt d, td = Some dt /\ datetime dt = true /\ adjust date_of dv = Some d) /\ v = dv))).
Proof. exact full_exact. Qed.
Print Assumptions C56_full_parameters_exact.

(** It exists exactly when some parameter is declared and every name in the
    table is a string... *)
Theorem C56_full_parameters_total : forall date_of f tb,
  (exists r, create_full date_of f tb = Some r) <->
  f_params f <> [] /\ forall k v, In (k, v) tb -> exists s, k = VStr s.
Proof. exact full_total. Qed.
Print Assumptions C56_full_parameters_total.

(** ...so data using a declared parameter whose name is no string is refused. *)
Theorem C56_non_string_name_refuted : exists date_of f k v w,
  (exists f0 ops, init wi_decl = Some f0 /\ f = run (is_date date_of) f0 ops) /\
  dget pyeq (f_params f) k = Some v /\ create_full date_of f [(k, w)] = None.
Proof.
  exists wi_date, wi_pf, (VNum (of_int 4)). destruct wi_pf_nonstring as (v & w & H). exists v, w. exact H.
Qed.
Print Assumptions C56_non_string_name_refuted.

Example C56_ex :
  f_params wi_pf <> [] /\ List.length (f_params wi_pf) = 4 /\
  fst (write_cell wi_date (mkIO wi_pf []) "parameters" "Value" (VNum PInf)) = Ret (VNum PInf) /\
  create_full wi_date wi_pf [(VStr "n", VNum (of_int 9)); (VStr "other", VNone)] =
    Some [(VStr "n", VNum (of_int 9)); (VStr "day", VDate 5); (VStr "any", VStr "x"); (VNum (of_int 4), VNum (of_int 1));
          (VStr "other", VNone)] /\
  create_full wi_date wi_pf [(VNum (of_int 4), VNum (of_int 2))] = None /\
  post_read wi_date wi_float wi_pf [(VStr "n", VStr "7"); (VStr "day", VStr "2020-01-01"); (VStr "any", VStr "y")] =
    [(VStr "n", VNum (of_int 7)); (VStr "day", VDate 5); (VStr "any", VStr "y")].
Proof. exact wi_pf_ok. Qed.

(** C67: the same for the tables of a PanDat, all cells of a column at once. *)
Theorem C67_pandat_numeric_flag : forall date_of float_of f t fs l m,
  NoDup fs -> rect fs l -> t <> "parameters" ->
  f_flag f = VNum m -> good_flag (VNum m) = true ->
  (forall r x v, In r l -> In (x, v) (combine fs r) ->
     kept date_of float_of f t x v /\ (forall n, v = VNum n -> n = PInf \/ n = NInf \/ within m n)) ->
  exists w, pan_write date_of f t fs l = Ret w /\ pan_read date_of float_of f t fs w = Ret l.
Proof. exact pan_round_trip_numeric. Qed.
Print Assumptions C67_pandat_numeric_flag.

Theorem C67_pandat_none_flag : forall date_of float_of f t fs l w,
  NoDup fs -> rect fs l -> t <> "parameters" -> f_flag f = VNone ->
  (forall r x v, In r l -> In (x, v) (combine fs r) ->
     kept date_of float_of f t x v /\
     (forall dt, field_type f t x = Some dt -> valid_data (is_date date_of) dt v = true)) ->
  pan_write date_of f t fs l = Ret w -> pan_read date_of float_of f t fs w = Ret l.
Proof. exact pan_round_trip_none. Qed.
Print Assumptions C67_pandat_none_flag.

(** Looking only at the columns with something to flag loses nothing. *)
Theorem C67_pandat_flags_every_cell : forall m fs l, good_flag (VNum m) = true -> NoDup fs -> rect fs l ->
  pan_write_num m fs l = map (fun r => map (flagged (VNum m)) r) l.
Proof. exact pan_write_num_all. Qed.
Print Assumptions C67_pandat_flags_every_cell.

Theorem C67_pandat_parameters : forall date_of f fs l, rect fs l -> f_params f = [] ->
  pan_write date_of f "parameters" fs l = Ret l.
Proof. exact pan_params_untouched. Qed.
Print Assumptions C67_pandat_parameters.

Example C67_ex :
  pan_write wi_date (wi_fac wi_big) "items" wi_fs wi_rows =
    Ret [[VStr "a"; VNum (of_int (-1000)); wi_big; VDate 1]; [VStr "b"; VStr "z"; VNum (of_int 999); VNone]] /\
  pan_write wi_date (wi_fac VNone) "items" wi_fs wi_rows =
    Ret [[VStr "a"; VNum NInf; VNone; VDate 1]; [VStr "b"; VStr "z"; VNum (of_int 999); VNone]].
Proof. exact wi_pan. Qed.

(** C68: a parameter stored as a string comes back with its own type... *)
Theorem C68_parameter_read_back : forall date_of float_of f k s v,
  denotes date_of float_of (param_type f k) s v ->
  (forall t, param_type f k = Some t -> valid_data (is_date date_of) t v = true) ->
  (s = "" -> forall t, param_type f k = Some t ->
     v = VNone \/ nullable t = false \/ valid_data (is_date date_of) t (VStr "") = true) ->
  param_cell date_of float_of f k (VStr s) = v.
Proof. exact param_read_back. Qed.
Print Assumptions C68_parameter_read_back.

(** Hence so does a whole table of them, in the same order. *)
Theorem C68_table_read_back : forall date_of float_of f tb tb0,
  f_params f <> [] ->
  Forall2 (fun st tr => fst st = fst tr /\ exists s, snd st = VStr s /\
             denotes date_of float_of (param_type f (fst tr)) s (snd tr) /\
             (forall t, param_type f (fst tr) = Some t -> valid_data (is_date date_of) t (snd tr) = true) /\
             (s = "" -> forall t, param_type f (fst tr) = Some t ->
                snd tr = VNone \/ nullable t = false \/ valid_data (is_date date_of) t (VStr "") = true))
    tb tb0 ->
  post_read date_of float_of f tb = tb0.
Proof. exact post_read_back. Qed.
Print Assumptions C68_table_read_back.

(** ...and adjusting it a second time changes nothing. *)
Theorem C68_parameter_idempotent : forall date_of float_of f k v,
  (forall x y, to_float float_of x = Some y -> to_float float_of y = Some y /\ numericish y = true) ->
  param_cell date_of float_of f k (param_cell date_of float_of f k v) = param_cell date_of float_of f k v.
Proof. exact param_cell_idem. Qed.
Print Assumptions C68_parameter_idempotent.

(** Parameters that take neither numbers nor dates keep their strings. *)
Theorem C68_text_parameter : forall date_of float_of f k v t,
  param_type f k = Some t -> number_allowed t = false -> datetime t = false ->
  param_cell date_of float_of f k v = v \/
  (v = VStr "" /\ nullable t = true /\ valid_data (is_date date_of) t v = false /\
   param_cell date_of float_of f k v = VNone).
Proof. exact param_cell_text. Qed.
Print Assumptions C68_text_parameter.

Example C68_ex :
  denotes wi_date wi_float (param_type wi_pf (VStr "n")) "7" (VNum (of_int 7)) /\
  (forall t, param_type wi_pf (VStr "n") = Some t -> valid_data (is_date wi_date) t (VNum (of_int 7)) = true) /\
  denotes wi_date wi_float (param_type wi_pf (VStr "day")) "2020-01-01" (VDate 5) /\
  (forall x y, to_float wi_float x = Some y -> to_float wi_float y = Some y /\ numericish y = true).
Proof. exact wi_denotes. Qed.
