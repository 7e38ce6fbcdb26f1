(** * ampl_format (utils.py 709-730). *)
From Coq Require Import Bool List String Ascii Arith.
From Verif Require Import InfIO.
Import ListNotations.

(** Python strings as lists of 8-bit characters (utils.py 709-730 works on such strings). *)
Definition text := list ascii.
(** A literal as such a string (utils.py 724). *)
Definition txt (s : string) : text := list_ascii_of_string s.

(** [s.startswith(p)] (used by [replace], utils.py 725-726). *)
Fixpoint starts (p s : text) : bool :=
  match p, s with
  | [], _ => true
  | a :: p', b :: s' => Ascii.eqb a b && starts p' s'
  | _, [] => false
  end.

(** [p in s] (utils.py 727-728). *)
Fixpoint contains (p s : text) : bool :=
  starts p s || match s with [] => false | _ :: s' => contains p s' end.

(** [s.replace(old, new)] for non-empty [old]: leftmost, non-overlapping;
    [skip] characters belong to the occurrence just replaced (utils.py 725-726). *)
Fixpoint replace_from (old new s : text) (skip : nat) : text :=
  match s with
  | [] => []
  | c :: s' =>
      match skip with
      | S k => replace_from old new s' k
      | 0 => if starts old s then new ++ replace_from old new s' (List.length old - 1)
             else c :: replace_from old new s' 0
      end
  end.
(** [s.replace(old, new)] of utils.py 725-726 and 729. *)
Definition replace (old new s : text) : text := replace_from old new s 0.

(** The characters replaced at utils.py 725-726. *)
Definition lbrace : ascii := "{"%char.
(** The characters replaced at utils.py 725-726. *)
Definition rbrace : ascii := "}"%char.

Section Format.
  (** The text of a replacement field, [None] when its evaluation raises:
      argument lookup, attributes, indexing, conversion and format
      specification are Python's. *)
  Variable subst : text -> option text.

  (** Where [str.format] is: in literal text, or [depth] braces deep in a
      replacement field with the text read so far, reversed (the call of utils.py 730). *)
  Inductive fstate : Type := Literal | Field (depth : nat) (acc : text).

  (** Helper of [format], utils.py 730. *)
  Definition prepend (p : text) (o : outcome text) : outcome text :=
    match o with Ret s => Ret (p ++ s) | Raise => Raise end.

  (** [s.format( ** kwargs)]: doubled braces are literal braces, a lone closing
      brace or an unfinished field raises ValueError (utils.py 730). *)
  Fixpoint format (s : text) (st : fstate) : outcome text :=
    match s with
    | [] => match st with Literal => Ret [] | Field _ _ => Raise end
    | c :: s' =>
        match st with
        | Literal =>
            if Ascii.eqb c lbrace then
              match s' with
              | [] => Raise
              | c' :: s'' => if Ascii.eqb c' lbrace then prepend [lbrace] (format s'' Literal)
                             else format s' (Field 1 [])
              end
            else if Ascii.eqb c rbrace then
              match s' with
              | [] => Raise
              | c' :: s'' => if Ascii.eqb c' rbrace then prepend [rbrace] (format s'' Literal) else Raise
              end
            else prepend [c] (format s' Literal)
        | Field d acc =>
            if Ascii.eqb c lbrace then format s' (Field (S d) (c :: acc))
            else if Ascii.eqb c rbrace then
              match d with
              | S (S d') => format s' (Field (S d') (c :: acc))
              | _ => match subst (rev acc) with
                     | None => Raise
                     | Some v => prepend v (format s' Literal)
                     end
              end
            else format s' (Field d (c :: acc))
        end
    end.

  (** utils.py 724 *)
  Definition left_mark : text := txt "_ticdat_ampl_format_[_".
  (** utils.py 724 *)
  Definition right_mark : text := txt "_ticdat_ampl_format_]_".

  (** utils.py 724-730 *)
  Definition ampl_format (mod_str : text) : outcome text :=
    if contains left_mark mod_str || contains right_mark mod_str then Raise
    else
      let r1 := replace (txt "}}") right_mark (replace (txt "{{") left_mark mod_str) in
      let r2 := replace (txt "}") (txt "}}") (replace (txt "{") (txt "{{") r1) in
      let r3 := replace right_mark (txt "}") (replace left_mark (txt "{") r2) in
      format r3 Literal.
End Format.
