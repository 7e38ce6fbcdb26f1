(** * Properties C61, C74, C75 *)
From Coq Require Import ZArith Bool List String Arith Lia.
From Verif Require Import PyVal PyValFacts PyDict PyDictFacts TypeDict Data FindTypes FindTypesFacts
  FK PanFKFacts WfCheck PanTypes PanTypesFacts PanTypesMore.
Import ListNotations.
Local Open Scope list_scope.

(** ** C74 The PanDat data type report *)

(** Without a bound a row is flagged for (table, field) exactly when that cell
    is not accepted by the type enforced there; one Series per failing column,
    as long as the table. *)
Theorem C74_exact : forall parses sch tys d rep, wf_schema sch -> wf_types sch tys -> wf_pdat sch d ->
  pan_find_types parses sch tys d PInf = Some rep ->
  NoDup (map fst rep) /\
  (forall t f fl, In ((t, f), fl) rep -> List.length fl = List.length (d t) /\ In true fl) /\
  (forall t f i, pan_flagged rep t f i <-> exists v, pan_failing parses sch tys d t f i v).
Proof. exact pan_find_exact_types. Qed.
Print Assumptions C74_exact.

(** With a bound: a subset with min(ceil(bound), total) flags. *)
Theorem C74_bounded : forall parses sch tys d rep repm mx n,
  num_ltb (of_int 0) mx = true -> rounds_up mx n ->
  pan_find_types parses sch tys d PInf = Some rep ->
  pan_find_types parses sch tys d mx = Some repm ->
  total_flags repm = Nat.min n (total_flags rep) /\
  (forall t f i, pan_flagged repm t f i -> pan_flagged rep t f i) /\
  (forall t f fl, In ((t, f), fl) repm -> List.length fl = List.length (d t) /\ In true fl).
Proof. exact pan_find_bound_types. Qed.
Print Assumptions C74_bounded.

Theorem C74_total : forall parses sch tys d mx,
  (exists rep, pan_find_types parses sch tys d mx = Some rep) <-> num_ltb (of_int 0) mx = true.
Proof.
  intros parses sch tys d mx. unfold pan_find_types. destruct (num_ltb (of_int 0) mx).
  - split; eauto.
  - split; [intros (rep & H) |]; discriminate.
Qed.
Print Assumptions C74_total.

(** ** C75 PanDat replacement *)

(** A call that returns keeps the number of rows and the row lengths; every
    cell either held a value its type rejects and now holds an accepted one, the
    given replacement or else the default, or is unchanged because its type
    accepts it or there is no replacement for the column. *)
Theorem C75_exact : forall parses sch tys dv d rv, wf_schema sch -> wf_types sch tys -> wf_pdat sch d ->
  praised (pan_replace parses sch tys dv d rv) = false ->
  let d' := pout (pan_replace parses sch tys dv d rv) in
  wf_pdat sch d' /\
  (forall t ts, In (t, ts) sch -> List.length (d' t) = List.length (d t)) /\
  (forall t f i v', pan_cell sch d' t f i v' -> exists v, pan_cell sch d t f i v /\
     ((exists dt, enforced sch tys t f dt /\ valid_data parses dt v = false /\ valid_data parses dt v' = true /\
         pan_replacement dv rv t f v') \/
      (v' = v /\ ~ exists dt x, enforced sch tys t f dt /\ valid_data parses dt v = false /\
         pan_replacement dv rv t f x))).
Proof. exact pan_replace_exact. Qed.
Print Assumptions C75_exact.

(** When it raises: a replacement for an unknown table or field; or some cell
    fails and either a replacement is given for a typed or key column without a
    default, or the value for a failing column is itself rejected.  Nothing is
    changed then. *)
Theorem C75_raises : forall parses sch tys dv d rv, wf_schema sch -> wf_types sch tys -> wf_pdat sch d ->
  (praised (pan_replace parses sch tys dv d rv) = true <->
   bad_reference sch rv \/
   ((exists t f i v, pan_failing parses sch tys d t f i v) /\
    (no_default sch tys dv rv \/ bad_replacement parses sch tys dv d rv))) /\
  (praised (pan_replace parses sch tys dv d rv) = true -> pout (pan_replace parses sch tys dv d rv) = d).
Proof. exact pan_replace_raises. Qed.
Print Assumptions C75_raises.

(** ** C61 Replacements for primary key fields *)

(** With a default value for every column named in [replacement_values], key
    columns included, the failing cells of a key column do get the given value. *)
Theorem C61_with_defaults : forall parses sch tys dv d rv t ts f x,
  wf_schema sch -> wf_types sch tys -> wf_pdat sch d ->
  In (t, ts) sch -> In f (tpk ts) -> dget tf_eqb rv (t, f) = Some x ->
  (forall t' f' y, In ((t', f'), y) rv ->
     dget2 dv t' f' <> None /\ exists ts', In (t', ts') sch /\ In f' (tpk ts' ++ tdf ts')) ->
  (forall t' f' dt y, enforced sch tys t' f' dt -> pan_replacement dv rv t' f' y -> valid_data parses dt y = true) ->
  let o := pan_replace parses sch tys dv d rv in
  praised o = false /\
  forall i v, pan_cell sch (pout o) t f i v ->
    (pan_cell sch d t f i v /\ ~ pan_failing parses sch tys d t f i v) \/
    ((exists v0, pan_failing parses sch tys d t f i v0) /\ v = x).
Proof.
  intros parses sch tys dv d rv t ts f x Hs Ht Hd Hin Hf Hx Hrv Hval o.
  assert (praised o = false) as Ho.
  { apply not_true_is_false. intros H. apply (proj1 (pan_replace_raises parses sch tys dv d rv Hs Ht Hd)) in H.
    destruct H as [(t' & f' & y & H1 & H2) | [_ [(t' & f' & y & dt & H1 & H2 & H3) | (t' & f' & i & v & dt & y & _ & H2 & _ & H4 & H5)]]].
    - apply H2. now apply (Hrv t' f' y).
    - apply (dget_In tf_eqb) in H1 as (k & E & H1). apply tf_eqb_eq in E. subst k. now apply (Hrv t' f' y).
    - rewrite (Hval _ _ _ _ H2 H4) in H5. discriminate. }
  split; auto. intros i v Hc.
  destruct (pan_replace_exact _ _ _ _ _ _ Hs Ht Hd Ho) as (_ & _ & Hex).
  destruct (Hex _ _ _ _ Hc) as (v0 & Hc0 & [(dt & H1 & H2 & H3 & H4) | [-> Hno]]).
  - right. split; [exists v0; split; eauto |]. destruct H4 as [E | [E _]]; congruence.
  - left. split; auto. intros (_ & dt & H1 & H2). apply Hno. exists dt, x. repeat split; auto. now left.
Qed.
Print Assumptions C61_with_defaults.

Definition pt_sch : schema := [("foods", mkT ["name"] ["cost"; "unit"])]%string.
Definition pt_nonneg : dtype := mkDtype true true false (of_int 0) PInf false (SList []) false false.
Definition pt_tys : types := [("foods", [("cost", pt_nonneg)])]%string.
Definition pt_num (z : Z) : value := VNum (of_int z).
Definition pt_dv : defaults := [("foods", [("cost", pt_num 0); ("unit", pt_num 0)])]%string.
Definition pt_dv' : defaults := [("foods", [("cost", pt_num 0); ("unit", pt_num 0); ("name", VStr "?")])]%string.
Definition pt_d : pdat := fun t =>
  if String.eqb t "foods" then
    [[VStr "ham"; pt_num 3; VStr "lb"]; [VNone; pt_num 2; VNone]; [VStr "egg"; pt_num (-1); VNone];
     [VNaN; VStr "x"; VNone]]%string
  else [].
Definition pt_d1 : pdat := fun t =>
  if String.eqb t "foods" then [[VNone; pt_num 2; VNone]] else [].
Definition pt_rv : replacements := [(("foods", "name"), VStr "none")]%string.

Lemma pt_wf : wf_schema pt_sch /\ wf_types pt_sch pt_tys /\ wf_pdat pt_sch pt_d /\ wf_pdat pt_sch pt_d1.
Proof.
  split; [now apply wf_schema_ok |]. split.
  { split; [apply (nodup_b_ok String.eqb String.eqb_eq); reflexivity |].
    intros t fs [E | []]. injection E as <- <-. split; [apply (nodup_b_ok String.eqb String.eqb_eq); reflexivity |].
    exists (mkT ["name"] ["cost"; "unit"])%string. split; [now left |].
    intros f dt [E | []]. injection E as <- _. simpl. auto. } split; now apply wf_pdat_ok.
Qed.

(** The documentation accepts this replacement, the code raises KeyError. *)
Theorem C61_refuted : exists sch tys dv d rv t ts f x,
  wf_schema sch /\ wf_types sch tys /\ wf_pdat sch d /\
  In (t, ts) sch /\ In f (tpk ts) /\ rv = [((t, f), x)] /\
  (forall t' f' dt y, enforced sch tys t' f' dt -> pan_replacement dv rv t' f' y ->
     valid_data (fun _ => false) dt y = true) /\
  (exists i v, pan_failing (fun _ => false) sch tys d t f i v) /\
  praised (pan_replace (fun _ => false) sch tys dv d rv) = true.
Proof.
  exists pt_sch, pt_tys, pt_dv, pt_d1, pt_rv, "foods"%string, (mkT ["name"] ["cost"; "unit"])%string, "name"%string, (VStr "none").
  destruct pt_wf as (H1 & H2 & _ & H4).
  split; [exact H1 |]. split; [exact H2 |]. split; [exact H4 |].
  split; [now left |]. split; [now left |]. split; [reflexivity |]. split; [| split].
  - intros t' f' dt y He Hr.
    assert (enforced pt_sch pt_tys t' f' dt -> (f' = "cost"%string /\ t' = "foods"%string /\ dt = pt_nonneg) \/ (f' = "name"%string /\ t' = "foods"%string /\ dt = nonnull_type)) as Hcases.
    { clear. intros [(fs & [Hin | []] & Hf) | (_ & (ts & [Hin | []] & Hf) & ->)].
      - injection Hin as <- <-. destruct Hf as [Hf | []]. injection Hf as <- <-. auto.
      - injection Hin as <- <-. destruct Hf as [<- | []]. auto. }
    destruct (Hcases He) as [(-> & -> & ->) | (-> & -> & ->)]; destruct Hr as [Hr | [Hr Hr2]]; vm_compute in Hr; try discriminate.
    + assert (pt_num 0 = y) as <-; [| vm_compute; reflexivity].
      assert (forall a b : value, Some a = Some b -> a = b) as Hinj by (intros a b E; now injection E). apply Hinj. exact Hr2.
    + injection Hr as <-. reflexivity.
  - exists 0, VNone. split.
    + exists (mkT ["name"] ["cost"; "unit"])%string, [VNone; pt_num 2; VNone], 0. split; [now left |]. auto.
    + exists nonnull_type. split; [| reflexivity]. right. split; [| split].
      * intros dt' (fs & [Hin | []] & Hf). injection Hin as <-. destruct Hf as [Hf | []]. injection Hf as Hf _. discriminate.
      * exists (mkT ["name"] ["cost"; "unit"])%string. split; now left.
      * reflexivity.
  - vm_compute. reflexivity.
Qed.
Print Assumptions C61_refuted.

Example C74_ex :
  pan_find_types (fun _ => false) pt_sch pt_tys pt_d PInf =
    Some [(("foods", "cost"), [false; false; true; true]); (("foods", "name"), [false; true; false; true])]%string /\
  pan_find_types (fun _ => false) pt_sch pt_tys pt_d (of_int 3) =
    Some [(("foods", "cost"), [false; false; true; true]); (("foods", "name"), [false; true; false; false])]%string /\
  pan_find_types (fun _ => false) pt_sch pt_tys pt_d (of_int 1) =
    Some [(("foods", "cost"), [false; false; true; false])]%string.
Proof. refine (conj _ (conj _ _)); vm_compute; reflexivity. Qed.

Example C75_ex :
  let o := pan_replace (fun _ => false) pt_sch pt_tys pt_dv pt_d [] in
  praised o = false /\
  pout o "foods"%string = [[VStr "ham"; pt_num 3; VStr "lb"]; [VNone; pt_num 2; VNone]; [VStr "egg"; pt_num 0; VNone];
     [VNaN; pt_num 0; VNone]]%string /\
  praised (pan_replace (fun _ => false) pt_sch pt_tys pt_dv pt_d [(("foods", "cost"), VStr "x")]%string) = true /\
  praised (pan_replace (fun _ => false) pt_sch pt_tys pt_dv pt_d [(("foods", "price"), pt_num 1)]%string) = true.
Proof. cbv zeta. refine (conj _ (conj _ (conj _ _))); vm_compute; reflexivity. Qed.

Example C61_ex :
  let o := pan_replace (fun _ => false) pt_sch pt_tys pt_dv' pt_d pt_rv in
  praised o = false /\
  pout o "foods"%string = [[VStr "ham"; pt_num 3; VStr "lb"]; [VStr "none"; pt_num 2; VNone];
     [VStr "egg"; pt_num 0; VNone]; [VStr "none"; pt_num 0; VNone]]%string.
Proof. cbv zeta. refine (conj _ _); vm_compute; reflexivity. Qed.
