(** * Counterexamples about foreign keys. *)
From Coq Require Import ZArith Bool List String Arith Lia.
From Verif Require Import PyVal PyValFacts PyDict Data FindTypes FindTypesFacts FK FKFacts RemoveFacts
  PanFKFacts ImpliedFacts WfCheck.
Import ListNotations.
Local Open Scope string_scope.
Local Open Scope list_scope.

(** Two native fields mapped to one foreign field. *)
Definition sh_sch : schema := [("trip", mkT ["id"] ["from"; "to"]); ("city", mkT ["name"] [])].
Definition sh_fk : fk := mkFk "trip" "city" [("from", "name"); ("to", "name")].
Definition sh_dat : dat := fun t =>
  if String.eqb t "trip" then Keyed [([VNum (of_int 1)], [VStr "atlantis"; VStr "oslo"])]
  else Keyed [([VStr "oslo"], [])].

Lemma shared_foreign_missed : exists sch f d rid,
  wf_schema sch /\ wf_fk sch f /\ wf_dat sch d /\ orphan sch d f rid /\
  find_foreign_key_failures sch [f] d PInf = Some [].
Proof.
  exists sh_sch, sh_fk, sh_dat, (RPk [VNum (of_int 1)]).
  split; [now apply wf_schema_ok |]. split; [now apply wf_fk_ok |].
  split; [now apply wf_dat_ok |]. split; [| reflexivity].
  exists [VNum (of_int 1)], [VStr "atlantis"; VStr "oslo"]. split; [simpl; auto |].
  intros (nts & fts & rid' & k' & r' & Hn & Hf & Hrow & Hag).
  simpl in Hn, Hf.
  destruct Hn as [E | [E | []]]; [injection E as <- | discriminate E].
  destruct Hf as [E | [E | []]]; [discriminate E | injection E as <-].
  simpl in Hrow. destruct Hrow as [[E | []] ->]. injection E as <- <-.
  assert (pyeq (VStr "atlantis") (VStr "oslo") = true) as H; [| discriminate H].
  apply (Hag "from" "name"); [simpl; auto | |].
  - exists 1. auto.
  - exists 0. auto.
Qed.

(** A compound mapping that swaps column names (PanDat). *)
Definition sw_sch : schema := [("edge", mkT ["a"; "b"] []); ("link", mkT ["a"; "b"] [])].
Definition sw_fk : fk := mkFk "edge" "link" [("a", "b"); ("b", "a")].
Definition sw_dat : pdat := fun t =>
  if String.eqb t "edge" then [[VNum (of_int 2); VNum (of_int 1)]; [VNum (of_int 2); VNum (of_int 2)]]
  else [[VNum (of_int 1); VNum (of_int 2)]].

(** Row 0 has a parent but is reported; row 1 has none and is not. *)
Lemma pan_swapped : exists sch f d,
  wf_schema sch /\ wf_fk sch f /\ distinct_foreign f /\ wf_pdat sch d /\
  ~ orphan (pan_schema sch) (as_dat d) f (RIdx 0) /\ flagged (pan_find sch [f] d) f 0 /\
  orphan (pan_schema sch) (as_dat d) f (RIdx 1) /\ ~ flagged (pan_find sch [f] d) f 1.
Proof.
  exists sw_sch, sw_fk, sw_dat.
  split; [now apply wf_schema_ok |]. split; [now apply wf_fk_ok |].
  split; [now apply (nodup_b_ok String.eqb String.eqb_eq) |]. split; [now apply wf_pdat_ok |].
  split; [| split; [| split]].
  - intros (k & r & Hrow & Hm). simpl in Hrow. destruct Hrow as (-> & i & Hi & E). injection E as <-.
    injection Hi as <-. apply Hm.
    exists (mkT [] ["a"; "b"]), (mkT [] ["a"; "b"]), (RIdx 0), [], [VNum (of_int 1); VNum (of_int 2)].
    split; [simpl; auto |]. split; [simpl; auto |].
    split; [split; [reflexivity | exists 0; auto] |].
    intros nf ff v w Hin (i & Hi & Hv) (j & Hj & Hw). simpl in *.
    destruct Hin as [E | [E | []]]; injection E as <- <-.
    + destruct i as [| [| [| i]]]; try discriminate Hi. destruct j as [| [| [| j]]]; try discriminate Hj.
      simpl in Hv, Hw. injection Hv as <-. injection Hw as <-. reflexivity.
    + destruct i as [| [| [| i]]]; try discriminate Hi. destruct j as [| [| [| j]]]; try discriminate Hj.
      simpl in Hv, Hw. injection Hv as <-. injection Hw as <-. reflexivity.
  - exists [true; false]. split; [| reflexivity]. now left.
  - exists [], [VNum (of_int 2); VNum (of_int 2)]. split; [split; [reflexivity | exists 1; auto] |].
    intros (nts & fts & rid' & k' & r' & Hn & Hf & Hrow & Hag). simpl in Hn, Hf.
    destruct Hn as [E | [E | []]]; [injection E as <- | discriminate E].
    destruct Hf as [E | [E | []]]; [discriminate E | injection E as <-].
    simpl in Hrow. destruct Hrow as (-> & i & Hi & ->).
    destruct i as [| [| i]]; try discriminate Hi. injection Hi as <-.
    assert (pyeq (VNum (of_int 2)) (VNum (of_int 1)) = true) as H; [| discriminate H].
    apply (Hag "b" "a"); [simpl; auto | |].
    + exists 1. auto.
    + exists 0. auto.
  - intros (fl & Hin & Hi). simpl in Hin. destruct Hin as [E | []].
    assert (fl = [true; false]) as -> by (injection E as <-; reflexivity). discriminate Hi.
Qed.

(** A bridge to a table without primary key. *)
Definition im_sch : schema :=
  [("n", mkT ["a"] ["b"]); ("bridge", mkT ["x"] ["y"]); ("f", mkT [] ["z"])].
Definition im_fks : list fk := [mkFk "n" "bridge" [("b", "x")]; mkFk "bridge" "f" [("y", "z")]].
Definition im_dat : dat := fun t =>
  if String.eqb t "n" then Keyed [([VNum (of_int 1)], [VNum (of_int 2)])]
  else if String.eqb t "bridge" then Keyed [([VNum (of_int 2)], [VNum (of_int 3)])]
  else Listed [[VNum (of_int 3)]].

Lemma implied_changes_verdict : exists sch fks fks' d rep,
  wf_schema sch /\ good_fks sch fks /\ wf_dat sch d /\
  (exists n, add_implied n sch fks = Some fks') /\
  find_foreign_key_failures sch fks d PInf = Some [] /\
  find_foreign_key_failures sch fks' d PInf = Some rep /\ rep <> [].
Proof.
  exists im_sch, im_fks, (im_fks ++ [mkFk "n" "f" []]), im_dat,
    [(mkFk "n" "f" [], ([[]], [RPk [VNum (of_int 1)]]))].
  split; [now apply wf_schema_ok |]. split; [now apply good_fks_ok |]. split; [now apply wf_dat_ok |].
  split; [exists 5; reflexivity |]. split; [reflexivity |]. split; [reflexivity | discriminate].
Qed.
