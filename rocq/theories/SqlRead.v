(** * Reading CREATE TABLE statements, as SQL does: words, names in brackets, clauses.
    Nothing in here is ticdat's; it says what the text of a schema means. *)
From Coq Require Import Bool List String Ascii Arith.
From Verif Require Import Ampl Obfus.
Import ListNotations.
Local Open Scope string_scope.
Local Open Scope list_scope.

Inductive token : Type :=
| TName : text -> token
| TWord : text -> token
| TSym : ascii -> token.

Definition word (w : text) : list token := match w with [] => [] | _ => [TWord w] end.
Definition blank (c : ascii) : bool := Ascii.eqb c " " || Ascii.eqb c "010".
Definition symbol (c : ascii) : bool := Ascii.eqb c "(" || Ascii.eqb c ")" || Ascii.eqb c "," || Ascii.eqb c ";".

(** A name in brackets ends at the first closing bracket. *)
Fixpoint tokens (w : text) (inside : bool) (x : text) : list token :=
  match x with
  | [] => word w
  | c :: x' =>
      if inside then if Ascii.eqb c "]" then TName w :: tokens [] false x' else tokens (w ++ [c]) true x'
      else if Ascii.eqb c "[" then word w ++ tokens [] true x'
      else if blank c then word w ++ tokens [] false x'
      else if symbol c then word w ++ TSym c :: tokens [] false x'
      else tokens (w ++ [c]) false x'
  end.

Record rcol : Type := mkRC { rc_name : text; rc_type : text; rc_default : option text }.
Record rfk : Type := mkRF { rf_native : list text; rf_table : text; rf_foreign : list text }.
Record rtable : Type := mkRT { rt_name : text; rt_cols : list rcol; rt_fks : list rfk; rt_key : list text }.

Definition is_word (s : string) (w : text) : bool := text_eqb w (txt s).
Definition is_sym (c : ascii) (d : ascii) : bool := Ascii.eqb d c.

(** Names up to the closing parenthesis. *)
Fixpoint names (l : list token) : option (list text * list token) :=
  match l with
  | TName x :: TSym c :: r =>
      if is_sym ")" c then Some ([x], r)
      else if is_sym "," c then match names r with Some (xs, r') => Some (x :: xs, r') | None => None end
      else None
  | _ => None
  end.

Definition add_col (c : rcol) (r : list rcol * list rfk * list text) := let '(cs, fs, k) := r in (c :: cs, fs, k).
Definition add_fk (f : rfk) (r : list rcol * list rfk * list text) := let '(cs, fs, k) := r in (cs, f :: fs, k).
Definition add_key (xs : list text) (r : list rcol * list rfk * list text) := let '(cs, fs, k) := r in (cs, fs, xs ++ k).

(** One clause and what comes after it. *)
Definition clause (l : list token) : option ((list rcol * list rfk * list text -> list rcol * list rfk * list text) * list token) :=
  match l with
  | TWord w :: TWord w' :: TSym c :: r =>
      if is_word "KEY" w' && is_sym "(" c then
        match names r with
        | None => None
        | Some (xs, r1) =>
            if is_word "PRIMARY" w then Some (add_key xs, r1)
            else if is_word "FOREIGN" w then
              match r1 with
              | TWord w2 :: TName t :: TSym c2 :: r2 =>
                  if is_word "REFERENCES" w2 && is_sym "(" c2 then
                    match names r2 with Some (ys, r3) => Some (add_fk (mkRF xs t ys), r3) | None => None end
                  else None
              | _ => None
              end
            else None
        end
      else None
  | TName x :: TWord w :: TName d :: r => if is_word "default" w then Some (add_col (mkRC x [] (Some d)), r) else None
  | TName x :: TWord ty :: TWord w :: TName d :: r => if is_word "default" w then Some (add_col (mkRC x ty (Some d)), r) else None
  | TName x :: r => Some (add_col (mkRC x [] None), r)
  | _ => None
  end.

(** The clauses of a table, separated by commas, up to the closing parenthesis and the semicolon. *)
Fixpoint body (n : nat) (l : list token) : option (list rcol * list rfk * list text) :=
  match n with
  | 0 => None
  | S n =>
      match clause l with
      | Some (g, [TSym c; TSym c']) => if is_sym ")" c && is_sym ";" c' then Some (g ([], [], [])) else None
      | Some (g, TSym c :: r) => if is_sym "," c then match body n r with Some b => Some (g b) | None => None end else None
      | _ => None
      end
  end.

(** The table a CREATE TABLE statement asks for. *)
Definition read_create (x : text) : option rtable :=
  match tokens [] false x with
  | TWord w :: TWord w' :: TName t :: TSym c :: r =>
      if is_word "Create" w && is_word "TABLE" w' && is_sym "(" c then
        match body (List.length r) r with Some (cs, fs, k) => Some (mkRT t cs fs k) | None => None end
      else None
  | _ => None
  end.
