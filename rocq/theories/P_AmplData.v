(** * Property theorems: C119, C120 (AMPL). *)
From Coq Require Import ZArith Bool List String Arith Lia.
From Verif Require Import PyVal PyDict PyDictFacts ListFacts Data FindTypes FindTypesFacts FK Obj ObjFacts ObjMore ObjLive Factory FactoryFacts GraphFacts WfCheck InfIO Json ObjRows
  Csv CsvTrip Frames FramesFacts FramesTrip FramesPan AmplData AmplTo AmplFrom AmplPan.
Import ListNotations.
Local Open Scope string_scope.
Local Open Scope list_scope.

Definition am_sch : schema := [("foods", mkT ["Food"] ["Cost"; "Buy"]); ("uses", mkT ["Food"; "Kind"] ["Qty"]); ("log", mkT [] ["Line"])].
Definition am_dv : defaults := [("foods", [("Cost", VNum (of_int 5)); ("Buy", VNum (of_int 0))]); ("uses", [("Qty", VNum (of_int 0))]); ("log", [("Line", VNum (of_int 0))])].
Definition am_n (z : Z) : value := VNum (of_int z).
Definition am_obj : obj := fun t =>
  if String.eqb t "foods" then OKeyed [(KAtom (VStr "egg"), [am_n 3; am_n 4]); (KAtom (VStr "oat"), [am_n 1; am_n 0])]
  else if String.eqb t "uses" then OKeyed [(KTup [VStr "egg"; VStr "fat"], [am_n 7])] else OListed [].
Definition am_pan : string -> frame := fun t =>
  if String.eqb t "foods" then mkFr [] [CName "Food"; CName "Cost"; CName "Buy"; CName "Note"] [([], [VStr "egg"; am_n 3; am_n 4; VStr "x"])]
  else if String.eqb t "uses" then mkFr [] [CName "Food"; CName "Kind"; CName "Qty"] [] else mkFr [] [CName "Line"] [].

Lemma am_wf : wf_schema am_sch.
Proof.
  split; [apply (nodup_b_ok String.eqb String.eqb_eq); reflexivity |]. intros t ts H. unfold wf_tschema.
  destruct H as [H | [H | [H | []]]]; injection H as <- <-; apply (nodup_b_ok String.eqb String.eqb_eq); reflexivity.
Qed.

Lemma am_obj_ok : obj_ok am_sch am_obj.
Proof.
  intros t ts [H | [H | [H | []]]]; injection H as <- <-; simpl.
  - intros k r [X | [X | []]]; injection X as <- <-; simpl; auto.
  - intros k r [X | []]; injection X as <- <-; simpl; auto.
  - intros r [].
Qed.

(** ** C119 copy_to_ampl *)

(** A factory with a generic table cannot copy anything, not even when the table is excluded. *)
Theorem C119_generic_refuted : (forall settle sch generics d ren excluded, generics <> [] -> copy_to_ampl settle sch generics d ren excluded = None) /\
  (forall sch generics x ren excluded, generics <> [] -> pan_copy_to_ampl sch generics x ren excluded = None) /\
  exists l, copy_to_ampl (fun c => c) am_sch [] am_obj [] [] = Some l /\ copy_to_ampl (fun c => c) am_sch ["notes"] am_obj [] ["notes"] = None.
Proof. split; [exact to_ampl_generic |]. split; [exact pan_to_ampl_generic |]. eexists. split; reflexivity. Qed.
Print Assumptions C119_generic_refuted.

(** A renamed key field of a PanDat table is added a second time, after the index column of the same name. *)
Theorem C119_pan_key_refuted : exists ren l a, ren = [(("foods", "Food"), "FOOD")] /\ good_pan_renamings am_sch [] am_pan ren /\
  pan_copy_to_ampl am_sch [] am_pan ren [] = Some l /\ dget String.eqb l "foods" = Some a /\
  a_index a = ["FOOD"] /\ map fst (a_cols a) = ["FOOD"; "FOOD"; "Cost"; "Buy"] /\ apart ren "foods" ["Food"; "Cost"; "Buy"; "Note"].
Proof.
  eexists. eexists. eexists. split; [reflexivity |]. split.
  - intros t f new [H | []]. injection H as <- <- <-. exists (mkT ["Food"] ["Cost"; "Buy"]). split; [split; [simpl; auto | split; [discriminate | intros []]] |].
    split; [simpl; auto | discriminate].
  - split; [reflexivity |]. split; [reflexivity |]. split; [reflexivity |]. split; [reflexivity |].
    intros f g Hf Hg. simpl in Hf, Hg.
    destruct Hf as [<- | [<- | [<- | [<- | []]]]]; destruct Hg as [<- | [<- | [<- | [<- | []]]]]; cbv; intros E; try reflexivity; discriminate E.
Qed.
Print Assumptions C119_pan_key_refuted.

(** Without generic tables: the copied tables are those with a key that are not excluded.  The index
    columns are the key under its new names; every field kept has one column, under its new name,
    with the cells of the table in order. *)
Theorem C119_tic : forall settle sch d ren excluded, wf_schema sch -> obj_ok sch d -> obj_settled settle sch d ->
  (forall t, In t excluded -> In t (map fst sch)) -> good_renamings sch excluded ren ->
  exists l, copy_to_ampl settle sch [] d ren excluded = Some l /\
    (forall t, In t (map fst l) <-> exists ts, In (t, ts) sch /\ tpk ts <> [] /\ ~ In t excluded) /\
    forall t ts, In (t, ts) sch -> tpk ts <> [] -> ~ In t excluded -> exists a, dget String.eqb l t = Some a /\
      a_index a = map (new_name ren t) (tpk ts) /\
      (forall n, In n (map fst (a_cols a)) <-> exists f, n = new_name ren t f /\ (In f (tpk ts) \/ (In f (tdf ts) /\ new_name ren t f <> ""))) /\
      (apart ren t (tfields ts) -> NoDup (map fst (a_cols a))) /\
      forall i f, nth_error (tfields ts) i = Some f -> In f (tpk ts) \/ new_name ren t f <> "" ->
        In (new_name ren t f, map (fun r => nth i r VNone) (full_rows (d t))) (a_cols a).
Proof.
  intros settle sch d ren excluded W Ok St He Hr. destruct (to_ampl settle sch d ren excluded W Ok St He Hr) as (l & E & F & G). exists l. split; auto. split; auto.
  intros t ts Hin Hp Hx. destruct (G t ts) as (a & A & B & C & D); [split; auto |]. exists a. split; auto. split; auto. rewrite C. split; [| split].
  - intros n. rewrite in_map_iff. split; [intros (f & <- & H); exists f; split; auto; now apply kept_in | intros (f & -> & H); exists f; split; auto; now apply kept_in].
  - apply tic_once. now apply (proj2 W _ _ Hin).
  - intros i f Hi Hk. apply D; auto. apply kept_in. apply nth_error_In in Hi. apply in_app_or in Hi. tauto.
Qed.
Print Assumptions C119_tic.

(** The new name of a field, and the names that are not accepted. *)
Theorem C119_names : forall ren t f, NoDup (map fst ren) ->
  (forall new, In ((t, f), new) ren -> new_name ren t f = new) /\ ((forall new, ~ In ((t, f), new) ren) -> new_name ren t f = f).
Proof.
  intros ren t f N. unfold new_name, dget_or.
  assert (forall a b, pair_eqb a b = true <-> a = b) as Q.
  { intros [a1 a2] [b1 b2]. unfold pair_eqb. cbn [fst snd]. rewrite andb_true_iff, !String.eqb_eq. split; [intros [-> ->]; auto | intros X; injection X; auto]. }
  split.
  - intros new H. induction ren as [| [k v] ren IH]; [contradiction |]. simpl in *. inversion N; subst. destruct (pair_eqb k (t, f)) eqn:E.
    + apply Q in E. subst k. destruct H as [H | H]; [now injection H |]. exfalso. apply H2. now apply (in_map fst) in H.
    + destruct H as [H | H]; [injection H as -> ->; rewrite (proj2 (Q (t, f) (t, f)) eq_refl) in E; discriminate | auto].
  - intros H. induction ren as [| [k v] ren IH]; auto. simpl in *. destruct (pair_eqb k (t, f)) eqn:E; [apply Q in E; subst k; exfalso; eapply H; eauto |].
    apply IH; [now inversion N | intros new X; eapply H; eauto].
Qed.
Print Assumptions C119_names.

(** PanDat tables: also columns outside the schema can be named; the columns are set once if no
    key field is renamed. *)
Theorem C119_pan : forall sch x ren excluded, wf_schema sch ->
  (forall t ts, In (t, ts) sch -> rect (x t) /\ forall f, In f (tfields ts) -> In (CName f) (fr_cols (x t))) ->
  (forall t, In t excluded -> In t (map fst sch)) -> good_pan_renamings sch excluded x ren ->
  exists l, pan_copy_to_ampl sch [] x ren excluded = Some l /\
    (forall t, In t (map fst l) <-> exists ts, In (t, ts) sch /\ tpk ts <> [] /\ ~ In t excluded) /\
    forall t ts, In (t, ts) sch -> tpk ts <> [] -> ~ In t excluded -> exists a, dget String.eqb l t = Some a /\
      a_index a = map (new_name ren t) (tpk ts) /\
      (forall n, In n (map fst (a_cols a)) <-> exists f, n = new_name ren t f /\ (In f (tpk ts) \/ ((renamed ren t f \/ In f (tdf ts)) /\ new_name ren t f <> ""))) /\
      (NoDup (map fst ren) -> (forall f, renamed ren t f -> ~ In f (tpk ts)) -> (forall f g, f <> g -> (In f (tfields ts) \/ renamed ren t f) -> (In g (tfields ts) \/ renamed ren t g) ->
          new_name ren t f <> "" -> new_name ren t f <> new_name ren t g) -> ~ In "" (tpk ts) -> NoDup (map fst (a_cols a))) /\
      forall f col, In f (tpk ts) \/ ((renamed ren t f \/ In f (tdf ts)) /\ new_name ren t f <> "") ->
        holds_column (x t) f col -> In (new_name ren t f, col) (a_cols a).
Proof.
  intros sch x ren excluded W Ok He Hr. destruct (pan_to_ampl sch x ren excluded W Ok He Hr) as (l & E & F & G). exists l. split; auto. split; auto.
  intros t ts Hin Hp Hx. destruct (G t ts) as (a & A & B & C & D); [split; auto |]. exists a. split; auto. split; auto. rewrite C. split; [| split; auto].
  - intros n. rewrite in_map_iff. split; [intros (f & <- & H); exists f; split; auto; apply kept_in in H; rewrite pan_fields_in in H; auto | intros (f & -> & H); exists f; split; auto; apply kept_in; now rewrite pan_fields_in].
  - intros N Hk Ap Hs. apply pan_once; auto; [now apply (proj2 W _ _ Hin) |]. intros f g Hf Hg Eq. destruct (string_dec f g) as [| Hne]; auto. exfalso.
    assert (forall f, In f (kept ren t (tpk ts) (pan_fields ren t ts)) -> (In f (tfields ts) \/ renamed ren t f) /\ new_name ren t f <> "") as K.
    { intros h Hh. apply kept_in in Hh as [Hh | [Hh Z]].
      - split; [left; apply in_or_app; auto |]. rewrite (proj2 (C119_names ren t h N)); [congruence |]. intros new X. apply (Hk h); [exists new; auto | auto].
      - split; auto. apply pan_fields_in in Hh as [Hh | Hh]; auto. left. apply in_or_app. auto. }
    destruct (K f Hf) as [K1 K2], (K g Hg) as [K3 _]. exact (Ap f g Hne K1 K3 K2 Eq).
Qed.
Print Assumptions C119_pan.

Example C119_ex : wf_schema am_sch /\ obj_ok am_sch am_obj /\ obj_settled (fun c => c) am_sch am_obj /\
  good_renamings am_sch ["uses"] [(("foods", "Cost"), "cost_of"); (("foods", "Buy"), "")] /\
  copy_to_ampl (fun c => c) am_sch [] am_obj [(("foods", "Cost"), "cost_of"); (("foods", "Buy"), "")] ["uses"] =
    Some [("foods", mkA ["Food"] [("Food", [VStr "egg"; VStr "oat"]); ("cost_of", [am_n 3; am_n 1])])] /\
  pan_copy_to_ampl am_sch [] am_pan [(("foods", "Note"), "note")] ["uses"] =
    Some [("foods", mkA ["Food"] [("Food", [VStr "egg"]); ("note", [VStr "x"]); ("Cost", [am_n 3]); ("Buy", [am_n 4])])].
Proof.
  split; [exact am_wf |]. split; [exact am_obj_ok |]. split; [intros t ts _ k _; reflexivity |]. split; [| split; reflexivity].
  intros t f new [H | [H | []]]; injection H as <- <- <-; exists (mkT ["Food"] ["Cost"; "Buy"]);
    (split; [split; [simpl; auto | split; [discriminate | intros [X | []]; discriminate X]] |]); (split; [simpl; auto |]); intros X; simpl; auto.
Qed.

(** ** C120 copy_from_ampl_variables *)

Definition am_vars : list aentry :=
  [(("foods", "Cost"), (mkVar 1 [([VStr "egg"], am_n 0); ([VStr "oat"], am_n 2)], nonzero));
   (("foods", "Buy"), (mkVar 1 [([VStr "egg"], am_n 9); ([VStr "rye"], am_n 0)], nonzero));
   (("uses", ""), (mkVar 2 [([VStr "egg"; VStr "fat"], am_n 1); ([VStr "oat"; VStr "fat"], am_n 0)], nonzero))].

Lemma two_keys : forall a b, canon_key a <> canon_key b -> no_equal_keys [a; b].
Proof. intros a b H. unfold no_equal_keys. simpl. constructor; [intros [X | []]; congruence | constructor; [intros [] | constructor]]. Qed.

Lemma am_good : ampl_schema am_sch [] am_dv /\ Forall (good_entry am_sch) am_vars /\ NoDup (named am_vars).
Proof.
  assert (frameable (mkT ["Food"] ["Cost"; "Buy"])) as Ff.
  { split; simpl; [intros [X | [X | []]]; discriminate X | intros [X | []]; discriminate X]. }
  assert (frameable (mkT ["Food"; "Kind"] [dummy])) as Fd.
  { split; simpl; [intros [X | []]; discriminate X | intros [X | [X | []]]; discriminate X]. }
  split; [| split].
  - split; [exact am_wf |]. split; [intros t [] |]. intros t ts [H | [H | [H | []]]]; injection H as <- <-; intros f; simpl; tauto.
  - constructor; [| constructor; [| constructor; [| constructor]]].
    + exists (mkT ["Food"] ["Cost"; "Buy"]). split; [simpl; auto |]. split; [discriminate |]. split; [| split; [discriminate |]].
      * intros _. split; [reflexivity |]. split; [intros k c [X | [X | []]]; injection X as <- _; reflexivity |]. apply two_keys. discriminate.
      * intros _. split; [simpl; auto | exact Ff].
    + exists (mkT ["Food"] ["Cost"; "Buy"]). split; [simpl; auto |]. split; [discriminate |]. split; [| split; [discriminate |]].
      * intros _. split; [reflexivity |]. split; [intros k c [X | [X | []]]; injection X as <- _; reflexivity |]. apply two_keys. discriminate.
      * intros _. split; [simpl; auto | exact Ff].
    + exists (mkT ["Food"; "Kind"] ["Qty"]). split; [simpl; auto |]. split; [discriminate |]. split; [| split].
      * intros _. split; [reflexivity |]. split; [intros k c [X | [X | []]]; injection X as <- _; reflexivity |]. apply two_keys. discriminate.
      * intros _. split; [reflexivity | exact Fd].
      * intros X. exfalso. apply X. reflexivity.
  - constructor; [intros [X | []]; discriminate X | constructor; [intros [] | constructor]].
Qed.

(** A variable that is 0 where another variable has a value: the row gets the default of the field,
    which need not be 0. *)
Theorem C120_zero_refuted : exists st c, copy_from_ampl am_sch [] am_dv "assert" am_vars = Some st /\
  In (("foods", "Cost"), (mkVar 1 [([VStr "egg"], am_n 0); ([VStr "oat"], am_n 2)], nonzero)) am_vars /\
  dget pkey_eqb (k_rows (st "foods")) (KAtom (VStr "egg")) = Some (RoRow false c) /\
  cell_at (mkT ["Food"] ["Cost"; "Buy"]) c "Cost" = Some (am_n 5).
Proof. eexists. eexists. split; [vm_compute; reflexivity |]. split; [left; reflexivity |]. split; vm_compute; reflexivity. Qed.
Print Assumptions C120_zero_refuted.

(** The rows of the result: a key is there iff some variable given for the table has a value there
    that its filter keeps.  The cell of a field is the value of its variable if the filter keeps it,
    else the default of the field. *)
Theorem C120_copied : forall sch generics dv mode entries, ampl_schema sch generics dv -> Forall (good_entry sch) entries -> NoDup (named entries) ->
  exists st, copy_from_ampl sch generics dv mode entries = Some st /\
    forall t ts, In (t, ts) sch -> ktable_ok ts (st t) /\
      (forall k, In k (map fst (k_rows (st t))) -> exists f v, passes entries t f k v) /\
      (forall k f v, passes entries t f k v -> exists k', pkey_eqb k' k = true /\ In k' (map fst (k_rows (st t)))) /\
      forall k c f, dget pkey_eqb (k_rows (st t)) k = Some (RoRow false c) -> In f (tdf ts) -> f <> "" ->
        (forall v, passes entries t f k v -> cell_at ts c f = Some v) /\
        ((forall v, ~ passes entries t f k v) -> cell_at ts c f = Some (cell_default dv t f)).
Proof.
  intros sch generics dv mode entries A G N. destruct (from_ampl sch generics dv mode A entries G N) as (st & E & I). exists st. split; auto.
  intros t ts Hin. destruct (I _ _ Hin) as ((_ & Ok & _) & H & C). split; auto. split; [| split].
  - intros k Hk. apply H. unfold has, dmem. apply in_map_iff in Hk as ([k' r] & Ek & Hk). cbn [fst] in Ek. subst k'.
    rewrite (In_dget pkey_eqb pkey_eqb_refl (k_rows (st t)) k r); auto. apply no_equal_keys_iff. apply Ok.
  - intros k f v P. assert (has (st t) k) as Hh by (apply H; eauto). unfold has, dmem in Hh. destruct (dget pkey_eqb (k_rows (st t)) k) as [r |] eqn:Eg; [| discriminate].
    apply dget_In in Eg as (k' & Ek & Hk). exists k'. split; auto. now apply (in_map fst) in Hk.
  - intros k c f Hk Hf Hne. destruct (C k f Hf Hne) as [C1 C2]. unfold cell in *. rewrite Hk in *. auto.
Qed.
Print Assumptions C120_copied.

(** For a field whose default is 0, and the usual filter, the cell equals the value of the variable. *)
Theorem C120_zero_default : forall sch generics dv mode entries st t ts f x k0 v k c, ampl_schema sch generics dv -> Forall (good_entry sch) entries -> NoDup (named entries) ->
  copy_from_ampl sch generics dv mode entries = Some st -> In (t, ts) sch -> In f (tdf ts) -> f <> "" -> cell_default dv t f = VNum (of_int 0) ->
  In ((t, f), (x, nonzero)) entries -> In (k0, v) (av_rows x) -> pkey_eqb (packed k0) k = true ->
  dget pkey_eqb (k_rows (st t)) k = Some (RoRow false c) -> exists w, cell_at ts c f = Some w /\ pyeq w v = true.
Proof. exact zero_default. Qed.
Print Assumptions C120_zero_default.

(** The PanDat version holds the same rows, and cannot be used with generic tables. *)
Theorem C120_pan : forall settle sch dv mode entries st, ampl_schema sch [] dv -> (forall t ts, In (t, ts) sch -> tfields ts <> []) ->
  Forall (good_entry sch) entries -> NoDup (named entries) ->
  copy_from_ampl sch [] dv mode entries = Some st -> obj_settled settle sch (ampl_obj sch st) ->
  exists x, pan_copy_from_ampl settle sch [] dv mode entries = Some x /\
    forall t ts, In (t, ts) sch -> fr_cols (x t) = map CName (tfields ts) /\ reads_rows ts (x t) (full_rows (ampl_obj sch st t)).
Proof.
  intros settle sch dv mode entries st A Hne G N E St. destruct (from_ampl sch [] dv mode A entries G N) as (st' & E' & I). rewrite E in E'. injection E' as <-.
  assert (forall t ts, In (t, ts) sch -> fine ts (st t)) as F by (intros t ts Hin; apply (I _ _ Hin)).
  destruct (pan_from_ampl settle sch dv mode entries st A Hne E F St) as (x & Ex & H). exists x. split; auto. intros t ts Hin. rewrite (H _ _ Hin). split; auto.
  pose proof (ampl_obj_ok sch st (proj1 A) F) as Ok. apply plain_reads; [apply (proj2 (proj1 A) _ _ Hin) |]. apply full_rows_length. now apply Ok.
Qed.
Print Assumptions C120_pan.

Theorem C120_pan_generic_refuted : (forall settle sch generics dv mode entries, generics <> [] -> pan_copy_from_ampl settle sch generics dv mode entries = None) /\
  exists st, copy_from_ampl am_sch ["notes"] am_dv "assert" am_vars = Some st.
Proof. split; [exact pan_from_ampl_generic |]. eexists. vm_compute. reflexivity. Qed.
Print Assumptions C120_pan_generic_refuted.

Example C120_ex : ampl_schema am_sch [] am_dv /\ Forall (good_entry am_sch) am_vars /\ NoDup (named am_vars) /\
  passes am_vars "foods" "Buy" (KAtom (VStr "egg")) (am_n 9) /\ (forall v, ~ passes am_vars "foods" "Buy" (KAtom (VStr "oat")) v) /\
  cell_default am_dv "foods" "Buy" = VNum (of_int 0) /\
  exists st, copy_from_ampl am_sch [] am_dv "assert" am_vars = Some st /\
    k_rows (st "foods") = [(KAtom (VStr "oat"), RoRow false [am_n 2; am_n 0]); (KAtom (VStr "egg"), RoRow false [am_n 5; am_n 9])] /\
    k_rows (st "uses") = [(KTup [VStr "egg"; VStr "fat"], RoRow false [am_n 0])].
Proof.
  split; [apply am_good |]. split; [apply am_good |]. split; [apply am_good |]. split; [| split; [| split; [reflexivity |]]].
  - exists (mkVar 1 [([VStr "egg"], am_n 9); ([VStr "rye"], am_n 0)]), nonzero, [VStr "egg"]. split; [right; left; reflexivity |]. split; [left; reflexivity |]. split; reflexivity.
  - intros v (x & flt & k0 & [H | [H | [H | []]]] & Hx & _ & Hk); try discriminate H. injection H as <- <-. destruct Hx as [Hx | [Hx | []]]; injection Hx as <- _; discriminate Hk.
  - eexists. split; [vm_compute; reflexivity |]. split; vm_compute; reflexivity.
Qed.
