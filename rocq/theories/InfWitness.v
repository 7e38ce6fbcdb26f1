(** * Concrete cases for infinity flagging and parameters. *)
From Coq Require Import ZArith Bool List String Lia.
From Verif Require Import PyVal PyDict TypeDict Data FindTypes FK Factory InfIO InfIOFacts PanIOFacts Params ParamsFacts.
Import ListNotations.
Local Open Scope string_scope.
Local Open Scope list_scope.

Ltac conjs := repeat match goal with |- _ /\ _ => split end.

Definition no_date (v : value) : option Z := None.
(** A parser of just two strings. *)
Definition wi_float (v : value) : option value :=
  match v with
  | VStr "7" => Some (VNum (of_int 7))
  | VStr _ => None
  | _ => Some v
  end.
Definition wi_date (v : value) : option Z :=
  match v with VStr "2020-01-01" => Some 5%Z | _ => None end.

Definition wi_decl : list (string * tdecl) :=
  [("parameters", Fields (mkT ["Key"] ["Value"])); ("items", Fields (mkT ["Name"] ["Cost"; "Cap"; "Day"]))].

Definition wi_f0 : factory := match init wi_decl with Some f => f | None => mkF [] [] [] [] [] [] [] [] false VNone VNone VNone VNone false end.

(** Cap: numbers from 0 to infinity inclusive. *)
Definition wi_cap : dtargs := mkArgs true true true (VNum (of_int 0)) (VNum PInf) false (AList []) false false.
(** Cost: any number or string. *)
Definition wi_any : dtargs := mkArgs true true true (VNum NInf) (VNum PInf) false AStar false false.
(** Day: dates. *)
Definition wi_day : dtargs := mkArgs false true true (VNum NInf) (VNum PInf) false AStar false true.

Definition wi_ops (flag : value) : list op :=
  [OSetType "items" "Cap" wi_cap; OSetType "items" "Day" wi_day; OFlag flag].

Definition wi_fac (flag : value) : factory := run (fun _ => false) wi_f0 (wi_ops flag).

Definition wi_st (flag : value) : iofac := mkIO (wi_fac flag) [].

(** A history in which the bias of Cap is cached and its type then changes. *)
Definition wi_hist : list iop :=
  [IFac (OSetType "items" "Cap" wi_cap); IFac (OFlag VNone);
   IWrite "items" "Cap" (VNum PInf);
   IFac (OSetType "items" "Cap" (mkArgs true true false (VNum NInf) (VNum (of_int 0)) false (AList []) false false));
   IRead "items" "Cap" VNone].

Lemma wi_hist_cached :
  io_cache (irun wi_date wi_float (mkIO wi_f0 []) (firstn 3 wi_hist)) <> [] /\
  fst (read_cell wi_date wi_float (irun wi_date wi_float (mkIO wi_f0 []) wi_hist) "items" "Cap" VNone) = Ret (VNum NInf) /\
  fst (read_cell wi_date wi_float (irun wi_date wi_float (mkIO wi_f0 []) (firstn 3 wi_hist)) "items" "Cap" VNone) = Ret (VNum PInf).
Proof. conjs; vm_compute; congruence. Qed.

Definition wi_big : value := VNum (of_int 1000).

Lemma wi_numeric :
  is_table (io_fac (wi_st wi_big)) "items" = true /\ f_flag (io_fac (wi_st wi_big)) = wi_big /\
  good_flag wi_big = true /\
  (forall v, kept wi_date wi_float (wi_fac wi_big) "items" "Cap" v) /\
  (forall v, kept wi_date wi_float (wi_fac wi_big) "items" "Cost" v) /\
  within (of_int 1000) (of_int 999) /\
  fst (write_cell wi_date (wi_st wi_big) "items" "Cap" (VNum PInf)) = Ret wi_big /\
  fst (write_cell wi_date (wi_st wi_big) "items" "Cap" (VNum (of_int 999))) = Ret (VNum (of_int 999)).
Proof.
  conjs; try (vm_compute; reflexivity).
  - intros v dt H. change (field_type (wi_fac wi_big) "items" "Cap") with (safe_creator wi_cap) in H.
    destruct (safe_creator wi_cap) as [dt'|] eqn:E; [|discriminate]. injection H as <-.
    assert (datetime dt' = false /\ strings_allowed dt' = SList []) as [-> ->].
    { vm_compute in E. injection E as <-. split; reflexivity. }
    split; [discriminate|]. intros _ H. now contradiction H.
  - intros v dt H. exfalso. assert (field_type (wi_fac wi_big) "items" "Cost" = None) as Q by (vm_compute; reflexivity).
    rewrite Q in H. discriminate.
  - split; vm_compute; reflexivity.
Qed.

Lemma wi_none :
  f_flag (io_fac (wi_st VNone)) = VNone /\
  fst (write_cell wi_date (wi_st VNone) "items" "Cap" (VNum PInf)) = Ret VNone /\
  (exists dt, field_type (wi_fac VNone) "items" "Cap" = Some dt /\ valid_data (is_date wi_date) dt (VNum PInf) = true /\
     valid_data (is_date wi_date) dt (VNum (of_int 3)) = true) /\
  fst (write_cell wi_date (wi_st VNone) "items" "Cap" (VNum (of_int 3))) = Ret (VNum (of_int 3)) /\
  fst (read_cell wi_date wi_float (wi_st VNone) "items" "Cap" VNone) = Ret (VNum PInf) /\
  fst (read_cell wi_date wi_float (wi_st VNone) "items" "Day" (VStr "2020-01-01")) = Ret (VDate 5).
Proof.
  conjs; try match goal with |- _ = _ => vm_compute; reflexivity end.
  eexists. split; [vm_compute; reflexivity|]. split; vm_compute; reflexivity.
Qed.

(** With the None flag a field allowing both infinities cannot be written. *)
Lemma wi_both :
  let f := run (fun _ => false) wi_f0 [OSetType "items" "Cap" wi_any; OFlag VNone] in
  fst (write_cell wi_date (mkIO f []) "items" "Cap" (VNum (of_int 1))) = Raise.
Proof. vm_compute. reflexivity. Qed.

(** C35: a parameters table without [add_parameter]. *)
Lemma wi_params_refuted :
  fst (write_cell wi_date (wi_st wi_big) "parameters" "Value" (VNum PInf)) = Ret wi_big /\
  fst (read_cell wi_date wi_float (wi_st wi_big) "parameters" "Value" wi_big) = Ret wi_big /\
  wi_big <> VNum PInf.
Proof. conjs; try (vm_compute; reflexivity). vm_compute. discriminate. Qed.

(** Parameters. *)
Definition wi_pops : list op :=
  [OAddParam (VStr "n") (VNum (of_int 3)) wi_cap true;
   OAddParam (VStr "day") (VStr "2020-01-01") wi_day true;
   OAddParam (VStr "any") (VStr "x") wi_any false;
   OAddParam (VNum (of_int 4)) (VNum (of_int 1)) wi_cap true;
   OFlag wi_big].
Definition wi_pf : factory := run (is_date wi_date) wi_f0 wi_pops.

Lemma wi_pf_ok :
  f_params wi_pf <> [] /\ List.length (f_params wi_pf) = 4 /\
  fst (write_cell wi_date (mkIO wi_pf []) "parameters" "Value" (VNum PInf)) = Ret (VNum PInf) /\
  create_full wi_date wi_pf [(VStr "n", VNum (of_int 9)); (VStr "other", VNone)] =
    Some [(VStr "n", VNum (of_int 9)); (VStr "day", VDate 5); (VStr "any", VStr "x"); (VNum (of_int 4), VNum (of_int 1));
          (VStr "other", VNone)] /\
  create_full wi_date wi_pf [(VNum (of_int 4), VNum (of_int 2))] = None /\
  post_read wi_date wi_float wi_pf [(VStr "n", VStr "7"); (VStr "day", VStr "2020-01-01"); (VStr "any", VStr "y")] =
    [(VStr "n", VNum (of_int 7)); (VStr "day", VDate 5); (VStr "any", VStr "y")].
Proof. conjs; try (vm_compute; reflexivity). vm_compute. discriminate. Qed.

(** A PanDat table. *)
Definition wi_rows : list (list value) :=
  [[VStr "a"; VNum NInf; VNum PInf; VDate 1]; [VStr "b"; VStr "z"; VNum (of_int 999); VNone]].
Definition wi_fs : list string := ["Name"; "Cost"; "Cap"; "Day"].

Lemma wi_pan :
  pan_write wi_date (wi_fac wi_big) "items" wi_fs wi_rows =
    Ret [[VStr "a"; VNum (of_int (-1000)); wi_big; VDate 1]; [VStr "b"; VStr "z"; VNum (of_int 999); VNone]] /\
  pan_write wi_date (wi_fac VNone) "items" wi_fs wi_rows =
    Ret [[VStr "a"; VNum NInf; VNone; VDate 1]; [VStr "b"; VStr "z"; VNum (of_int 999); VNone]].
Proof. split; vm_compute; reflexivity. Qed.

Lemma wi_fac_reach : exists f0 ops, init wi_decl = Some f0 /\ wi_fac wi_big = run (is_date wi_date) f0 ops.
Proof.
  exists wi_f0, (wi_ops wi_big). split; [reflexivity|]. vm_compute. reflexivity.
Qed.

Lemma wi_pf_nonstring : exists v w,
  (exists f0 ops, init wi_decl = Some f0 /\ wi_pf = run (is_date wi_date) f0 ops) /\
  dget pyeq (f_params wi_pf) (VNum (of_int 4)) = Some v /\ create_full wi_date wi_pf [(VNum (of_int 4), w)] = None.
Proof.
  eexists. exists VNone. split; [exists wi_f0, wi_pops; split; reflexivity|].
  split; vm_compute; reflexivity.
Qed.

Lemma wi_param_n : exists t, param_type wi_pf (VStr "n") = Some t /\ datetime t = false /\ number_allowed t = true /\
  valid_data (is_date wi_date) t (VNum (of_int 7)) = true.
Proof. eexists. split; [vm_compute; reflexivity|]. conjs; vm_compute; reflexivity. Qed.

Lemma wi_param_day : exists t, param_type wi_pf (VStr "day") = Some t /\ datetime t = true.
Proof. eexists. split; [vm_compute; reflexivity|]. vm_compute; reflexivity. Qed.

Lemma wi_denotes :
  denotes wi_date wi_float (param_type wi_pf (VStr "n")) "7" (VNum (of_int 7)) /\
  (forall t, param_type wi_pf (VStr "n") = Some t -> valid_data (is_date wi_date) t (VNum (of_int 7)) = true) /\
  denotes wi_date wi_float (param_type wi_pf (VStr "day")) "2020-01-01" (VDate 5) /\
  (forall x y, to_float wi_float x = Some y -> to_float wi_float y = Some y /\ numericish y = true).
Proof.
  destruct wi_param_n as (t & -> & H1 & H2 & H3). destruct wi_param_day as (t' & -> & H4).
  conjs.
  - unfold denotes. split; [|reflexivity]. intros t0 [= <-]. auto.
  - intros t0 [= <-]. exact H3.
  - unfold denotes. split; [|reflexivity]. exists t'. auto.
  - intros x y H. unfold to_float in *. destruct x; try discriminate.
    + injection H as <-. split; reflexivity.
    + injection H as <-. destruct b; split; reflexivity.
    + destruct n; injection H as <-; split; reflexivity.
    + cbn in H. destruct (string_dec s "7") as [->|N].
      * injection H as <-. split; reflexivity.
      * exfalso. revert H N. clear. destruct s as [|[[] [] [] [] [] [] [] []] [|]]; cbn; try discriminate. congruence.
Qed.
