(** * Properties C47-C50, C60 *)
From Coq Require Import ZArith Bool List String Ascii Arith Lia.
From Verif Require Import PyVal PyValFacts PyDict PyDictFacts PyStr Data InfIO RowPred Utils UtilsFacts UtilsMore.
Import ListNotations.
Local Open Scope list_scope.

(** ** C48 Slicer *)

(** Any element type with an equivalence as [==]. *)
Definition equivalence {A} (eqb : A -> A -> bool) : Prop :=
  (forall x, eqb x x = true) /\ (forall x y, eqb x y = eqb y x) /\
  (forall x y z, eqb x y = true -> eqb y z = true -> eqb x z = true).

(** [found] is [l] restricted to the tuples that agree with [args], in order:
    [keep] says of each whether it agrees. *)
Theorem C48_exact_slice : forall A (eqb : A -> A -> bool) star l s ops args, equivalence eqb ->
  make_slicer star l = Ret s -> l <> [] -> List.length args = List.length (hd [] l) ->
  exists agree found,
    fst (slice eqb star (srun eqb star s ops) args) = Ret found /\ found = filter agree l /\
    forall t, In t l -> (agree t = true <->
      forall i a x, nth_error args i = Some a -> nth_error t i = Some x -> star a = true \/ eqb a x = true).
Proof.
  intros A eqb star l s ops args (E1 & E2 & E3) Hm Hl Ha. exists (agrees eqb star args), (filter (agrees eqb star args) l).
  split; [eapply slice_history; eauto|]. split; auto. intros t Ht. rewrite agrees_iff. split; [tauto|].
  intros H. split; auto. rewrite Ha. symmetry. eapply make_slicer_lengths; eauto.
Qed.
Print Assumptions C48_exact_slice.

(** Empty indices give an empty list; a wrong number of arguments raises. *)
Theorem C48_other_calls : forall A (eqb : A -> A -> bool) star l s ops args, equivalence eqb ->
  make_slicer star l = Ret s ->
  (l = [] -> fst (slice eqb star (srun eqb star s ops) args) = Ret []) /\
  (l <> [] -> List.length args <> List.length (hd [] l) -> fst (slice eqb star (srun eqb star s ops) args) = Raise).
Proof. intros A eqb star l s ops args (E1 & E2 & E3) Hm. eapply slice_other; eauto. Qed.
Print Assumptions C48_other_calls.

(** The constructor takes exactly the index lists of one length without ["*"]. *)
Theorem C48_constructor : forall A (star : A -> bool) l,
  (exists s, make_slicer star l = Ret s) <->
  (forall t u, In t l -> In u l -> List.length t = List.length u) /\
  (forall t x, In t l -> In x t -> star x = false).
Proof. exact @make_slicer_iff. Qed.
Print Assumptions C48_constructor.

Definition val_star (v : value) : bool := pyeq v (VStr "*").
Definition int (z : Z) : value := VNum (of_int z).
Definition sl_demo : list (list value) :=
  [[int 1; VStr "a"]; [int 2; VStr "a"]; [VBool true; VStr "b"]; [int 2; VStr "b"]; [int 1; VStr "a"]].

Example C48_ex : equivalence pyeq /\
  match make_slicer val_star sl_demo with
  | Ret s => fst (slice pyeq val_star (srun pyeq val_star s
         [OSlice [VStr "*"; VStr "z"]; OSlice [int 2; VStr "*"]; OSlice [int 7; VStr "*"]; OClear; OSlice [VStr "*"; VStr "*"]])
       [int 1; VStr "*"]) = Ret [[int 1; VStr "a"]; [VBool true; VStr "b"]; [int 1; VStr "a"]]
  | Raise => False
  end.
Proof.
  split; [split; [exact pyeq_refl|split; [exact pyeq_sym|exact pyeq_trans]]|]. vm_compute. reflexivity.
Qed.

(** ** C49 Duplicate reports *)

(** [key_in_row flds row k]: [k] are the cells of [row] in the fields [flds];
    [occurrences k ks]: how many of [ks] equal [k]. *)
Theorem C49_counts_exact : forall pks rows rtn t flds ks, NoDup (map fst pks) ->
  find_duplicates pks rows = Ret rtn -> In (t, flds) pks -> Forall2 (key_in_row flds) (rows t) ks ->
  forall k n, (exists d k', In (t, d) rtn /\ In (k', n) d /\ key_pyeq k' k = true) <->
              n = occurrences k ks /\ 1 < n.
Proof. exact find_duplicates_counts. Qed.
Print Assumptions C49_counts_exact.

(** Each key is reported once, a table only if it has a duplicate, and no other
    table. *)
Theorem C49_reports : forall pks rows rtn t d,
  find_duplicates pks rows = Ret rtn -> In (t, d) rtn ->
  In t (map fst pks) /\ d <> [] /\
  forall i j k m k' m', nth_error d i = Some (k, m) -> nth_error d j = Some (k', m') -> key_pyeq k k' = true -> i = j.
Proof. exact find_duplicates_reports. Qed.
Print Assumptions C49_reports.

(** It returns whenever every row has the primary key fields. *)
Theorem C49_total : forall pks rows,
  (forall t flds, In (t, flds) pks -> exists ks, Forall2 (key_in_row flds) (rows t) ks) <->
  exists rtn, find_duplicates pks rows = Ret rtn.
Proof.
  intros pks rows. split; [apply find_duplicates_total|]. intros (rtn & H). now apply find_duplicates_spec in H.
Qed.
Print Assumptions C49_total.

Definition dup_rows (t : string) : list (list (string * value)) :=
  if String.eqb t "foods" then
    [[("n", VStr "a"); ("m", int 1)]; [("n", VStr "b"); ("m", int 1)]; [("n", VStr "a"); ("m", VBool true)];
     [("n", VStr "a"); ("m", int 2)]; [("n", VStr "a"); ("m", int 1)]; [("n", VStr "a"); ("m", int 2)]]%string
  else [[("x", VNone)]]%string.
Example C49_ex :
  find_duplicates [("foods", ["n"; "m"]); ("other", ["x"])]%string dup_rows =
    Ret [("foods"%string, [([VStr "a"; int 1], 3); ([VStr "a"; int 2], 2)])].
Proof. vm_compute. reflexivity. Qed.

(** ** C50 PanDat duplicates *)

(** The rows returned are those with an equal key before them (first), after
    them (last), or anywhere else (False). *)
Theorem C50_flagged_rows : forall eqb kp pks rows rtn t flds ks, equivalence eqb -> NoDup (map fst pks) ->
  pan_duplicates eqb kp pks rows = Ret rtn -> In (t, flds) pks -> flds <> [] ->
  Forall2 (key_in_row flds) (rows t) ks ->
  exists flags, List.length flags = List.length (rows t) /\
    (forall i k, nth_error ks i = Some k -> exists b, nth_error flags i = Some b /\
      (b = true <-> exists j k', nth_error ks j = Some k' /\ eqb k k' = true /\
         match kp with KFirst => j < i | KLast => i < j | KNone => j <> i end)) /\
    forall tbl, In (t, tbl) rtn <-> tbl = masked flags (rows t) /\ tbl <> [].
Proof. intros eqb kp pks rows rtn t flds ks _. apply pan_flagged. Qed.
Print Assumptions C50_flagged_rows.

(** The call returns exactly when every row of a table with primary key has the key's fields. *)
Theorem C50_returns : forall eqb kp pks rows,
  (exists rtn, pan_duplicates eqb kp pks rows = Ret rtn) <->
  forall t flds r x, In (t, flds) pks -> In r (rows t) -> In x flds -> dget String.eqb r x <> None.
Proof. exact pan_duplicates_returns. Qed.
Print Assumptions C50_returns.

(** Dropping the flagged rows leaves exactly one row per key. *)
Theorem C50_one_row_per_key : forall K (eqb : K -> K -> bool) kp ks, equivalence eqb -> kp <> KNone ->
  let left := masked (map negb (duplicated eqb kp ks)) ks in
  (forall k, In k ks -> exists k', In k' left /\ eqb k k' = true) /\
  (forall i j k k', nth_error left i = Some k -> nth_error left j = Some k' -> eqb k k' = true -> i = j).
Proof. exact @one_row_per_key. Qed.
Print Assumptions C50_one_row_per_key.

Example C50_ex :
  let ks := [1; 2; 1; 3; 2; 1] in
  duplicated Nat.eqb KFirst ks = [false; false; true; false; true; true] /\
  duplicated Nat.eqb KLast ks = [true; true; true; false; false; false] /\
  duplicated Nat.eqb KNone ks = [true; true; true; false; true; true] /\
  pan_duplicates key_pyeq KLast [("foods", ["n"; "m"]); ("other", ["x"])]%string dup_rows =
    Ret [("foods", [[("n", VStr "a"); ("m", int 1)]; [("n", VStr "a"); ("m", VBool true)]; [("n", VStr "a"); ("m", int 2)]])]%string.
Proof. cbv zeta. refine (conj _ (conj _ (conj _ _))); vm_compute; reflexivity. Qed.

(** ** C60 log_table *)

(** For a table of equally long rows: the title line, the announcement exactly
    when rows are omitted, the header, the first [n] rows for the smaller [n] of
    the bound and the number of rows, and an empty line.  In each row line,
    column [i] starts at [i] times the column width with the text of that cell,
    when what precedes fits. *)
Theorem C60_lines : forall A (fmt : A -> string) name header rows (bound : nat) out,
  log_table fmt name (header :: rows) (Z.of_nat bound) = Ret out ->
  exists w title row_line announcement,
    out = (title :: announcement ++ row_line header :: map row_line (firstn (min bound (List.length rows)) rows) ++ [newline]) /\
    (announcement = [] <-> List.length rows <= bound) /\ List.length announcement <= 1 /\
    18 <= w <= 30 /\
    forall row i x, (forall j y, j < i -> nth_error row j = Some y -> String.length (fmt y) <= w) ->
      nth_error row i = Some x -> exists rest, from (i * w) (row_line row) = (fmt x ++ rest)%string.
Proof. exact @log_lines. Qed.
Print Assumptions C60_lines.

(** Up to padding, the lines are the cells' texts and nothing else. *)
Theorem C60_texts : forall A (fmt : A -> string) name header rows (bound : nat) out row,
  log_table fmt name (header :: rows) (Z.of_nat bound) = Ret out ->
  In row (header :: firstn bound rows) ->
  exists line, In line out /\ squeeze line = (concat_str (map (fun x => squeeze (fmt x)) row) ++ newline)%string.
Proof. exact @log_texts. Qed.
Print Assumptions C60_texts.

(** A negative bound [-(k+1)] counts from the end, as Python slices do: the lines are those of
    the header and the rows without the last [k] of them ([-1]: no line at all), and rows are
    always announced as omitted. *)
Theorem C60_negative : forall A (fmt : A -> string) name seq (k : nat) out,
  log_table fmt name seq (- Z.of_nat (S k)) = Ret out ->
  exists title announcement row_line shown,
    out = (title :: announcement :: map row_line shown ++ [newline]) /\
    (k = 0 -> shown = []) /\
    (0 < k -> shown = firstn (List.length seq - k) seq) /\
    forall row, In row seq -> squeeze (row_line row) = (concat_str (map (fun x => squeeze (fmt x)) row) ++ newline)%string.
Proof. exact @log_negative. Qed.
Print Assumptions C60_negative.

(** It raises exactly for a missing header or rows of another length. *)
Theorem C60_accepted : forall A (fmt : A -> string) name seq bound,
  (exists out, log_table fmt name seq bound = Ret out) <->
  exists header rows, seq = header :: rows /\ forall r, In r rows -> List.length r = List.length header.
Proof. exact @log_accepted. Qed.
Print Assumptions C60_accepted.

Local Open Scope string_scope.
Example C60_ex :
  log_table (fun s => s) "costs" [["food"; "cost"]; ["milk"; "2"]; ["eggs"; "3"]; ["ham"; "4"]] 2 =
  Ret ["Table costs:" ++ newline;
       "(Showing first 2 entries out of 3 in total)" ++ newline;
       "food                          cost                          " ++ newline;
       "milk                          2                             " ++ newline;
       "eggs                          3                             " ++ newline; newline].
Proof. vm_compute. reflexivity. Qed.
(** A negative bound counts from the end, as Python slices do. *)
Example C60_negative_ex :
  log_table (fun s => s) "t" [["h"]; ["1"]; ["2"]] (-2) =
  Ret ["Table t:" ++ newline; "(Showing first -2 entries out of 2 in total)" ++ newline;
       "h                             " ++ newline; "1                             " ++ newline; newline].
Proof. vm_compute. reflexivity. Qed.
Local Close Scope string_scope.

(** ** C47 Trailing empty rows *)

(** pandas: what is kept is a front part, everything dropped is all null, and
    the last row kept is not. *)
Theorem C47_pandas_exact : forall R (null_row : R -> bool) df, exists kept dropped,
  remove_trailing_all_nan null_row df = Ret kept /\ df = kept ++ dropped /\
  (forall r, In r dropped -> null_row r = true) /\
  (kept = [] \/ exists front r, kept = front ++ [r] /\ null_row r = false).
Proof. exact @prune_exact. Qed.
Print Assumptions C47_pandas_exact.

Example C47_pandas_ex :
  remove_trailing_all_nan (Nat.eqb 0) [0; 3; 0; 0; 7; 0; 0; 0] = Ret [0; 3; 0; 0; 7] /\
  remove_trailing_all_nan (Nat.eqb 0) [0; 0] = Ret [] /\ remove_trailing_all_nan (Nat.eqb 0) [1] = Ret [1].
Proof. vm_compute. repeat split; reflexivity. Qed.

(** Excel through openpyxl: a sheet that starts below row 1 loses its last
    rows. *)
Theorem C47_sheet_refuted : exists s first r,
  first + 1 = sh_min s /\
  (forall i row, i + 1 < sh_min s -> nth_error (sh_rows s) i = Some row -> forall v, In v row -> v = VNone) /\
  In r (skipn first (sh_rows s)) /\ (exists v, In v r /\ v <> VNone) /\ ~ In r (rows_read true s first).
Proof.
  exists (mkSheet 3 [[VNone]; [VNone]; [VStr "name"]; [VStr "milk"]; [VStr "eggs"]]), 2, [VStr "eggs"%string].
  split; [reflexivity|]. split; [|split; [simpl; auto 6|split]].
  - intros [|[|i]] row Hi H v Hv; simpl in *; try lia; injection H as <-; destruct Hv as [<-|[]]; reflexivity.
  - exists (VStr "eggs"%string). split; [now left | discriminate].
  - intros [H|[]]. discriminate.
Qed.
Print Assumptions C47_sheet_refuted.

(** Exact for sheets that start in row 1. *)
Theorem C47_sheet_from_row_one : forall s, sh_min s = 1 -> exists kept dropped,
  sh_rows s = kept ++ dropped /\ (forall first, rows_read true s first = skipn first kept) /\
  (forall r v, In r dropped -> In v r -> v = VNone) /\
  (kept = [] \/ exists front r v, kept = front ++ [r] /\ In v r /\ v <> VNone).
Proof.
  intros s H. destruct (sheet_prune_exact s H) as (kept & dropped & A & B & C & K). exists kept, dropped.
  split; [exact A|]. split; [exact B|]. split.
  - intros r v Hr. now apply empty_row_iff, C.
  - destruct K as [K|(front & r & -> & K)]; [now left|right]. apply nonempty_row_iff in K as (v & Hv & Hn). exists front, r, v. auto.
Qed.
Print Assumptions C47_sheet_from_row_one.

(** Without pruning nothing is dropped, wherever the sheet starts. *)
Theorem C47_sheet_ignore : forall s first, rows_read false s first = skipn first (sh_rows s).
Proof. intros. unfold rows_read, wrapped_max_row. now rewrite firstn_all. Qed.
Print Assumptions C47_sheet_ignore.

Example C47_sheet_ex :
  rows_read true (mkSheet 1 [[VStr "name"]; [VStr "milk"]; [VNone]; [VStr "eggs"]; [VNone]; [VNone]]) 1 =
  [[VStr "milk"]; [VNone]; [VStr "eggs"]]%string.
Proof. reflexivity. Qed.
