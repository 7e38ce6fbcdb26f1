(** * PanDatFactory.find_data_type_failures / replace_data_type_failures
    (pandatfactory.py 1123-1247). *)
From Coq Require Import ZArith Bool List String Arith.
From Verif Require Import PyVal PyDict TypeDict Data FindTypes FK.
Import ListNotations.

(** The iteration [for table, type_row in ...: for field, data_type in ...] as
    one list.  Both loops are left together by [return] (1192), so flattening
    them changes nothing. *)
Definition typed (tys : types) : list ((string * string) * dtype) :=
  flat_map (fun ttr => map (fun fdt => ((fst ttr, fst fdt), snd fdt)) (snd ttr)) tys.

(** (table, field) -> boolean Series (pandatfactory.py 1168-1192). *)
Definition pflags := list ((string * string) * list bool).

Section Pan.
  Variable parses : value -> bool.

  (** pandatfactory.py 1172-1173 and 1237-1239 [_bad_row]. *)
  Definition pan_bad (dt : dtype) (v : value) : bool :=
    negb (valid_data parses dt (if is_null v then VNone else v)).

  (** pandatfactory.py 1174-1184 [bad_row] applied to a column from the top; [c] is
      [number_failures\[0\]]. *)
  Fixpoint bad_rows (mx : num) (dt : dtype) (cells : list value) (c : nat) : list bool * nat :=
    match cells with
    | [] => ([], c)
    | v :: cells' =>
        if num_ltb mx PInf then
          if num_leb mx (of_int (Z.of_nat c)) then
            let (fl, c') := bad_rows mx dt cells' c in (false :: fl, c')
          else if pan_bad dt v then
            let (fl, c') := bad_rows mx dt cells' (S c) in (true :: fl, c')
          else let (fl, c') := bad_rows mx dt cells' c in (false :: fl, c')
        else let (fl, c') := bad_rows mx dt cells' c in (pan_bad dt v :: fl, c')
    end.

  (** pandatfactory.py 1166-1193.  [as_table] only selects between the flags and the rows they
      select; the flags are modelled. *)
  Fixpoint pan_find_loop (sch : schema) (l : list ((string * string) * dtype)) (d : pdat)
    (mx : num) (c : nat) : pflags :=
    match l with
    | [] => []
    | (tf, dt) :: l' =>
        let cells := map (fun r => pcell (ts_of sch (fst tf)) r (snd tf)) (d (fst tf)) in
        let (fl, c') := bad_rows mx dt cells c in
        let rest := if num_leb mx (of_int (Z.of_nat c')) then [] else pan_find_loop sch l' d mx c' in
        if existsb (fun b => b) fl then (tf, fl) :: rest else rest
    end.

  (** pandatfactory.py 1138-1193; [None] is the AssertionError (1164).  [_true_data_types]
      (1123-1137) is [tmp_types], as for TicDatFactory. *)
  Definition pan_find_types (sch : schema) (tys : types) (d : pdat) (mx : num) : option pflags :=
    if num_ltb (of_int 0) mx then Some (pan_find_loop sch (typed (tmp_types sch tys)) d mx 0) else None.

  (** pandatfactory.py 1219-1221: primary key fields are accepted here. *)
  Definition pan_repl_ok (sch : schema) (rv : replacements) : bool :=
    forallb (fun kv => dmem String.eqb sch (fst (fst kv)) &&
                       existsb (String.eqb (snd (fst kv))) (tfields (ts_of sch (fst (fst kv))))) rv.

  (** pandatfactory.py 1227-1232.  [replacement_values.get(key, self.default_values[table][field])]
      evaluates the default first: [None] is its KeyError. *)
  Fixpoint pan_real (l : list ((string * string) * dtype)) (dv : defaults) (rv : replacements)
    (acc : replacements) : option replacements :=
    match l with
    | [] => Some acc
    | (tf, _) :: l' =>
        if dmem tf_eqb rv tf || match dget2 dv (fst tf) (snd tf) with Some _ => true | None => false end then
          match dget2 dv (fst tf) (snd tf) with
          | None => None
          | Some dflt => pan_real l' dv rv (dset tf_eqb acc tf (dget_or tf_eqb rv tf dflt))
          end
        else pan_real l' dv rv acc
    end.

  (** pandatfactory.py 1233-1236 *)
  Definition pan_valid (tys : types) (needed : pflags) (rr : replacements) : bool :=
    forallb (fun kv =>
      if dmem tf_eqb needed (fst kv) then
        match dget2 tys (fst (fst kv)) (snd (fst kv)) with
        | Some dt => valid_data parses dt (snd kv)
        | None => false
        end
      else true) rr.

  (** pandatfactory.py 1238-1245: one column after the other. *)
  Definition pan_apply (sch : schema) (tys : types) (needed : pflags) (rr : replacements) (d : pdat) : pdat :=
    fold_left (fun d e =>
      let t := fst (fst e) in let f := snd (fst e) in let ts := ts_of sch t in
      match dget tf_eqb rr (fst e), dget2 tys t f with
      | Some x, Some dt =>
          upd_p d t (map (fun r => if pan_bad dt (pcell ts r f)
                                   then set_nth_cell (tfields ts) r f x else r) (d t))
      | _, _ => d
      end) needed d.

  (** The data when the call ends, and whether it raised (pandatfactory.py 1197-1247). *)
  Record poutcome : Type := mkPOut { pout : pdat; praised : bool }.

  (** pandatfactory.py 1194-1247, with the closing assert. *)
  Definition pan_replace (sch : schema) (tys : types) (dv : defaults) (d : pdat) (rv : replacements) : poutcome :=
    if pan_repl_ok sch rv then
      match pan_find_types sch tys d PInf with
      | None => mkPOut d true
      | Some [] => mkPOut d false
      | Some needed =>
          match pan_real (typed (tmp_types sch tys)) dv rv [] with
          | None => mkPOut d true
          | Some rr =>
              if pan_valid (tmp_types sch tys) needed rr then
                let d' := pan_apply sch (tmp_types sch tys) needed rr d in
                match pan_find_types sch tys d' PInf with
                | None => mkPOut d' true
                | Some remaining => mkPOut d' (existsb (fun e => dmem tf_eqb rr (fst e)) remaining)
                end
              else mkPOut d true
          end
      end
    else mkPOut d true.
End Pan.
