(** * Foreign key links: ticdatfactory.py 593-609 (names) and 861-919 (links).

    Not modelled: generator tables; the link dictionaries alias the native rows
    (here they hold copies). *)
From Coq Require Import ZArith Bool List String Arith.
From Verif Require Import PyVal PyDict Data FindTypes FK Obj.
Import ListNotations.
Local Open Scope string_scope.
Local Open Scope list_scope.

(** [keyrow] of ticdatfactory.py 898-900 without the data. *)
Definition key_cells (k : pkey) : list value := match k with KAtom v => [v] | KTup l => l end.

(** [x[0] if len(x) == 1 else x] (ticdatfactory.py 901-912). *)
Definition pack (l : list value) : pkey := match l with [v] => KAtom v | _ => KTup l end.

Section Links.
  Variables nts fts : tschema.
  Variable m : list (string * string).

  (** ticdatfactory.py 888-889 [local_posn], in the order of the foreign primary key. *)
  Definition local_posn : list nat :=
    map (fun x => index_of (dget_or String.eqb (foreign_to_native m) x EmptyString) (tpk nts ++ tdf nts)) (tpk fts).

  (** ticdatfactory.py 898-900 *)
  Definition link_lookup (k : pkey) (r : row) : pkey :=
    pack (map (fun i => nth i (key_cells k ++ r) VNone) local_posn).

  (** ticdatfactory.py 890-891, 907-909: the cells of the key at unused positions. *)
  Definition link_rest (k : pkey) : pkey :=
    pack (map (fun i => nth i (key_cells k) VNone)
            (filter (fun i => negb (existsb (Nat.eqb i) local_posn)) (seq 0 (List.length (key_cells k))))).

  (** ticdatfactory.py 893 *)
  Definition new_pk : list string := filter (fun x => negb (mem_str x (map fst m))) (tpk nts).

  (** The key check of [TicDatDict.__setitem__] (708-710) for a link dict. *)
  Definition link_key_ok (k : pkey) : bool :=
    match k with
    | KAtom _ => Nat.eqb (List.length new_pk) 1
    | KTup l => Nat.ltb 1 (List.length new_pk) && Nat.eqb (List.length l) (List.length new_pk)
    end.

  (** A link dictionary for each foreign row (ticdatfactory.py 892-897). *)
  Definition linked : Type := list (pkey * list (pkey * row)).

  (** ticdatfactory.py 897-912, one native row. *)
  Definition link_step (st : option linked) (kr : pkey * row) : option linked :=
    match st with
    | None => None
    | Some links =>
        let lk := link_lookup (fst kr) (snd kr) in
        match dget pkey_eqb links lk with
        | None => Some links
        | Some inner =>
            if link_key_ok (link_rest (fst kr))
            then Some (dset pkey_eqb links lk (dset pkey_eqb inner (link_rest (fst kr)) (snd kr)))
            else None
        end
    end.

  (** Not one-to-one (892-912).  None: an exception. *)
  Definition make_links (native foreign : list (pkey * row)) : option linked :=
    fold_left link_step native (Some (map (fun kr => (fst kr, [])) foreign)).

  (** One-to-one (901-904): the row itself; the assert raises on a second row. *)
  Definition one_step (st : option (list (pkey * option row))) (kr : pkey * row) :=
    match st with
    | None => None
    | Some links =>
        let lk := link_lookup (fst kr) (snd kr) in
        match dget pkey_eqb links lk with
        | None => Some links
        | Some None => Some (dset pkey_eqb links lk (Some (snd kr)))
        | Some (Some _) => None
        end
    end.
  (** ticdatfactory.py 897-904 over all native rows. *)
  Definition make_one_links (native foreign : list (pkey * row)) : option (list (pkey * option row)) :=
    fold_left one_step native (Some (map (fun kr => (fst kr, None)) foreign)).
End Links.

(** ** Link names: 593-609 *)

Definition set_eqb (a b : list string) : bool :=
  forallb (fun x => mem_str x b) a && forallb (fun x => mem_str x a) b.

Section Names.
  (** Iteration over a frozenset of strings: some order of it. *)
  Variable order : list string -> list string.

  (** ticdatfactory.py 583-589 [_simple_fk] *)
  Definition simple_fk (sch : schema) (f : fk) : bool :=
    set_eqb (tpk (ts_of sch (fk_foreign f))) (map snd (fk_map f)).

  (** ticdatfactory.py 597-598 [nativeFieldsSet] of a (native, foreign) pair. *)
  Definition native_sets (sch : schema) (fks : list fk) (nt ft : string) : list (list string) :=
    fold_left (fun acc f =>
        if String.eqb (fk_native f) nt && String.eqb (fk_foreign f) ft && simple_fk sch f
        then (if existsb (set_eqb (map fst (fk_map f))) acc then acc else acc ++ [map fst (fk_map f)])
        else acc) fks [].

  (** ["_".join(l)], ticdatfactory.py 599-608. *)
  Definition join_underscore (l : list string) : string := String.concat "_" l.

  (** ticdatfactory.py 599-608: the name under [_linkName[nt, ft, frozenset(fields)]]. *)
  Definition link_name (sch : schema) (fks : list fk) (nt ft : string) (fields : list string) : string :=
    let sets := native_sets sch fks nt ft in
    if Nat.eqb (List.length sets) 1 then nt
    else
      let trial := fold_left (fun tr s => if set_eqb s fields then tr
                                          else filter (fun x => negb (mem_str x s)) tr) sets fields in
      join_underscore (nt :: order (match trial with [] => fields | _ => trial end)).
End Names.
