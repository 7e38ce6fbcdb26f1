(** Properties C121-C123: comparison within a tolerance. *)
From Coq Require Import ZArith Bool List String Arith Lia.
From Verif Require Import PyVal PyValFacts PyDict PyDictFacts Data FindTypes FK Obj ObjFacts ObjMore WfCheck Factory InfIO Json Csv CsvTrip Frames FramesFacts FramesTrip
  Near NearFacts NearPan.
Import ListNotations.
Local Open Scope string_scope.
Local Open Scope list_scope.

(** ** C121 nearly_same *)

(** 1e-5, the tolerance used throughout ticdat. *)
Definition w121_eps : num := Fin (5902958103587057 * 2 ^ 1005).
Definition w121_n (k : Z) : value := VNum (of_int k).

(** NaN is "nearly the same" as any finite number; and as infinity, if it comes first. *)
Theorem C121_nan_refuted : forall eps, num_ltb (of_int 0) eps = true ->
  (forall z, nearly_same eps VNaN (VNum (Fin z)) = true /\ nearly_same eps (VNum (Fin z)) VNaN = true) /\
  nearly_same eps VNaN (VNum PInf) = true /\ nearly_same eps (VNum PInf) VNaN = false.
Proof.
  intros eps He. split; [intros z; now apply nan_near |]. split.
  - unfold nearly_same. cbn [to_fl]. change (per_error FNaN (FNum PInf)) with (QFrac 0 1). now apply zero_near.
  - unfold nearly_same. cbn [to_fl]. change (per_error (FNum PInf) FNaN) with (QInf true). now destruct eps.
Qed.
Print Assumptions C121_nan_refuted.

(** Of other cells, exactly the numbers that are equal, both tiny, or close in proportion to the larger one. *)
Theorem C121_numbers : forall eps a b, num_ltb (of_int 0) eps = true -> a <> VNaN -> b <> VNaN ->
  (nearly_same eps a b = true <-> exists x y, number_of a = Some x /\ number_of b = Some y /\ close eps x y).
Proof. exact nearly_same_iff. Qed.
Print Assumptions C121_numbers.

Theorem C121_order : forall eps a b, num_ltb (of_int 0) eps = true -> a <> VNaN -> b <> VNaN ->
  nearly_same eps a b = nearly_same eps b a /\
  (forall n, number_of a = Some n -> nearly_same eps a a = true) /\
  (forall eps', num_ltb eps' eps = false -> nearly_same eps a b = true -> nearly_same eps' a b = true).
Proof.
  intros eps a b He Ha Hb. split; [| split].
  - apply eq_true_iff_eq. rewrite !nearly_same_iff by auto. split; intros (x & y & A & B & C); exists y, x; auto using close_sym.
  - intros n Hn. apply nearly_same_iff; auto. exists n, n. auto using close_same.
  - intros eps' Hle H. assert (num_ltb (of_int 0) eps' = true) as He'.
    { rewrite of_int_0 in *. destruct eps as [| e |], eps' as [| e' |]; cbn [num_ltb] in *; auto; try discriminate. apply Z.ltb_lt in He. apply Z.ltb_ge in Hle. apply Z.ltb_lt. lia. }
    apply nearly_same_iff in H as (x & y & A & B & C); auto. apply nearly_same_iff; auto. exists x, y. split; auto. split; auto. eapply close_mono; eauto.
Qed.
Print Assumptions C121_order.

(** For tolerances up to 1, what is nearly 0 are the numbers up to the float nearest to 1e-10: the one of the 53 bit
    mantissa [m] and the exponent 988 - 1074 that is off by no more than half a unit of its last bit. *)
Theorem C121_zero : exists m, (2 ^ 52 <= m < 2 ^ 53)%Z /\ (2 * Z.abs (m * 2 ^ 988 * 10 ^ 10 - 2 ^ 1074) <= 2 ^ 988 * 10 ^ 10)%Z /\
  forall eps z, num_ltb (of_int 0) eps = true -> num_ltb (of_int 1) eps = false ->
    (nearly_same eps (VNum (Fin z)) (VNum (of_int 0)) = true <-> (Z.abs z <= m * 2 ^ 988)%Z).
Proof.
  exists 7737125245533627%Z. split; [split; vm_compute; congruence |]. split; [vm_compute; congruence |].
  assert (7737125245533627 * 2 ^ 988 = small_not_zero)%Z as E by (vm_compute; reflexivity). rewrite E.
  intros eps z He H1. rewrite nearly_same_iff by (auto; discriminate). cbn [number_of]. rewrite of_int_0. split.
  - intros (x & y & Hx & Hy & H). injection Hx as <-. injection Hy as <-. inversion H as [| ? ? A B | e ? ? Ee A | ? ? Ee]; subst.
    + vm_compute; congruence.
    + exact A.
    + exfalso. unfold of_int in H1. cbn [num_ltb] in H1. apply Z.ltb_ge in H1. rewrite Z.sub_0_r in A. change (Z.abs 0) with 0%Z in A. rewrite Z.max_l in A by lia.
      rewrite Z.mul_1_l in H1. assert (e * Z.abs z <= one_units * Z.abs z)%Z by (apply Z.mul_le_mono_nonneg_r; lia). lia.
    + discriminate H1.
  - intros H. exists (Fin z), (Fin 0). split; [reflexivity |]. split; [reflexivity |]. apply close_tiny; [exact H | vm_compute; congruence].
Qed.
Print Assumptions C121_zero.

Example C121_ex : num_ltb (of_int 0) w121_eps = true /\
  nearly_same w121_eps (w121_n 1000000) (w121_n 1000001) = true /\ nearly_same w121_eps (w121_n (-1000)) (w121_n (-1001)) = false /\
  nearly_same w121_eps (w121_n (-1)) (w121_n 1) = false /\ nearly_same w121_eps (VNum NInf) (VNum NInf) = true /\
  nearly_same w121_eps (VBool true) (w121_n 1) = true /\ nearly_same w121_eps (VStr "1") (w121_n 1) = false /\
  nearly_same w121_eps VNaN (w121_n 5) = true.
Proof. refine (conj _ (conj _ (conj _ (conj _ (conj _ (conj _ (conj _ _))))))); vm_compute; reflexivity. Qed.

(** ** C122 _same_data of a TicDatFactory *)

Definition w122_sch : schema := [("items", mkT ["Name"] ["Cost"; "Note"])].
Definition w122_obj (v w : value) : obj := fun t => if String.eqb t "items" then OKeyed [(KAtom (VStr "a"), [v; w])] else OListed [].

Lemma w122_ok : forall v w, obj_ok w122_sch (w122_obj v w) /\ obj_keys w122_sch (w122_obj v w).
Proof.
  intros v w. split; intros t ts [H | []]; injection H as <- <-.
  - intros k r [H | []]. injection H as <- <-. split; [| reflexivity]. reflexivity.
  - constructor; [intros [] | constructor].
Qed.

(** An object with NaN passes for the same as one with 5 there, although NaNs were not declared to be the same. *)
Theorem C122_nan_refuted : exists sch d e eps, obj_ok sch d /\ obj_ok sch e /\ obj_keys sch d /\
  d "items" = OKeyed [(KAtom (VStr "a"), [VNaN; VStr ""])] /\ e "items" = OKeyed [(KAtom (VStr "a"), [w121_n 5; VStr ""])] /\ In "items" (map fst sch) /\
  same_data_tol eps false false sch d e = Some true /\ same_data_tol (of_int 0) false false sch d e = Some false.
Proof.
  exists w122_sch, (w122_obj VNaN (VStr "")), (w122_obj (w121_n 5) (VStr "")), w121_eps.
  refine (conj (proj1 (w122_ok _ _)) (conj (proj1 (w122_ok _ _)) (conj (proj2 (w122_ok _ _)) (conj _ (conj _ (conj _ (conj _ _)))))));
    [reflexivity | reflexivity | simpl; auto | vm_compute; reflexivity | vm_compute; reflexivity].
Qed.
Print Assumptions C122_nan_refuted.

(** Without NaN cells (or with tolerance 0) the answer is exact. *)
Theorem C122_exact : forall eps nans empties sch d e, obj_ok sch d -> obj_ok sch e -> obj_keys sch d ->
  obj_cells (tolerable eps) sch d -> obj_cells (tolerable eps) sch e -> num_ltb eps (of_int 0) = false ->
  exists b, same_data_tol eps nans empties sch d e = Some b /\ (b = true <-> objects_alike (alike eps nans empties) sch d e).
Proof.
  intros eps nans empties sch d e Hd He Hk Pd Pe H0. unfold same_data_tol. rewrite H0. eexists. split; [reflexivity |].
  apply (data_by_iff _ _ (tolerable eps)); auto. intros a b Ha Hb. now apply cell_same_iff.
Qed.
Print Assumptions C122_exact.

Theorem C122_symmetric : forall eps nans empties sch d e, obj_ok sch d -> obj_ok sch e -> obj_keys sch d -> obj_keys sch e ->
  (forall t ts, In (t, ts) sch -> tpk ts <> []) ->
  obj_cells (tolerable eps) sch d -> obj_cells (tolerable eps) sch e ->
  same_data_tol eps nans empties sch d e = same_data_tol eps nans empties sch e d.
Proof.
  intros eps nans empties sch d e Hd He Kd Ke Hp Pd Pe. destruct (num_ltb eps (of_int 0)) eqn:H0; [unfold same_data_tol; now rewrite H0 |].
  destruct (C122_exact eps nans empties sch d e) as (b & E & B); auto. destruct (C122_exact eps nans empties sch e d) as (b' & E' & B'); auto.
  rewrite E, E'. f_equal. apply eq_true_iff_eq. rewrite B, B'.
  assert (forall d e, obj_ok sch d -> obj_ok sch e -> objects_alike (alike eps nans empties) sch d e -> objects_alike (alike eps nans empties) sch e d) as S.
  { clear - Hp. intros d e Hd He H t ts Hin. specialize (H t ts Hin). specialize (Hd t ts Hin). specialize (He t ts Hin). specialize (Hp t ts Hin). unfold table_ok in *.
    destruct (tpk ts) as [| p pk]; [congruence |]. destruct (d t) as [l | l], (e t) as [m | m]; try contradiction.
    destruct H as [H1 H2]. split; [intros k; symmetry; apply H1 |]. intros k r r' Hr Hr'. specialize (H2 k r' r Hr' Hr).
    clear - H2. induction H2; constructor; auto. now apply alike_sym. }
  split; auto.
Qed.
Print Assumptions C122_symmetric.

(** Tolerance 0 is the plain comparison; a larger tolerance accepts more; a negative one is an error. *)
Theorem C122_tolerance : forall nans empties sch d e,
  same_data_tol (of_int 0) false false sch d e = Some (same_data sch d e) /\
  (forall eps, num_ltb eps (of_int 0) = true -> same_data_tol eps nans empties sch d e = None) /\
  (forall eps eps', obj_ok sch d -> obj_ok sch e -> obj_keys sch d -> obj_cells (fun v => v <> VNaN) sch d -> obj_cells (fun v => v <> VNaN) sch e ->
     num_ltb eps' eps = false -> same_data_tol eps nans empties sch d e = Some true -> same_data_tol eps' nans empties sch d e = Some true).
Proof.
  intros nans empties sch d e. split; [apply same_data_zero |]. split; [intros eps H; unfold same_data_tol; now rewrite H |].
  intros eps eps' Hd He Hk Pd Pe Hle H.
  assert (forall ep o, obj_cells (fun v => v <> VNaN) sch o -> obj_cells (tolerable ep) sch o) as T.
  { intros ep o Po t ts Hin. specialize (Po t ts Hin). destruct (o t) as [l | l].
    - intros k r Hr. eapply Forall_impl; [| eapply Po; eauto]. intros v Hv _. exact Hv.
    - intros r Hr. eapply Forall_impl; [| eapply Po; eauto]. intros v Hv _. exact Hv. }
  destruct (num_ltb eps (of_int 0)) eqn:H0; [unfold same_data_tol in H; rewrite H0 in H; discriminate |].
  assert (num_ltb eps' (of_int 0) = false) as H0'.
  { rewrite of_int_0 in *. destruct eps as [| a |], eps' as [| a' |]; cbn [num_ltb] in *; auto; try discriminate. apply Z.ltb_ge in Hle, H0. apply Z.ltb_ge. lia. }
  destruct (C122_exact eps nans empties sch d e) as (b & E & B); auto. destruct (C122_exact eps' nans empties sch d e) as (b' & E' & B'); auto.
  rewrite E'. f_equal. apply B'. rewrite H in E. injection E as <-. eapply alike_mono; [| apply B; reflexivity].
  intros a b0 [X | x y X1 X2 X3 X4 | X1 X2 X3]; [now apply alike_equal | | now apply alike_missing].
  apply alike_close with (x := x) (y := y); auto; [| exact (close_mono eps eps' x y Hle X4)].
  rewrite of_int_0 in *. destruct eps as [| c |], eps' as [| c' |]; cbn [num_ltb] in *; auto; try discriminate. apply Z.ltb_ge in Hle. apply Z.ltb_lt in X1. apply Z.ltb_lt. lia.
Qed.
Print Assumptions C122_tolerance.

Example C122_ex : obj_cells (tolerable w121_eps) w122_sch (w122_obj (w121_n 1000000) VNone) /\
  same_data_tol w121_eps true true w122_sch (w122_obj (w121_n 1000000) VNone) (w122_obj (w121_n 1000001) (VStr "")) = Some true /\
  same_data_tol w121_eps true false w122_sch (w122_obj (w121_n 1000000) VNone) (w122_obj (w121_n 1000001) (VStr "")) = Some false /\
  same_data_tol w121_eps true true w122_sch (w122_obj (w121_n 1000) VNone) (w122_obj (w121_n 1001) (VStr "")) = Some false.
Proof.
  split; [intros t ts [H | []]; injection H as <- <-; intros k r [H | []]; injection H as <- <-; constructor; [intros _; discriminate | constructor; [intros _; discriminate | constructor]] |].
  refine (conj _ (conj _ _)); vm_compute; reflexivity.
Qed.

(** ** C123 _same_data of a PanDatFactory *)

Definition w123_sch : schema := [("items", mkT ["Name"] ["Cost"])].
Definition w123_pan (a b : Z) (g : frame) : string -> frame := fun t =>
  if String.eqb t "items" then mkFr [] [CName "Name"; CName "Cost"] [([], [VStr "a"; w121_n a]); ([], [VStr "b"; w121_n b])] else g.
Definition w123_dup (a b : Z) : string -> frame := fun t =>
  if String.eqb t "items" then mkFr [] [CName "Name"; CName "Cost"] [([], [VStr "a"; w121_n a]); ([], [VStr "a"; w121_n b])] else mkFr [] [] [].

(** Rows that share their key with a later row are not compared at all, unless duplicates are an error. *)
Theorem C123_duplicates_refuted : forall mode, mode <> "assert" ->
  pan_same_data (of_int 0) false w123_sch [] mode (w123_dup 1 3) (w123_dup 2 3) = Some true.
Proof.
  intros mode Hm. unfold pan_same_data, pan_as_tic, from_frames. apply String.eqb_neq in Hm. rewrite Hm. vm_compute. reflexivity.
Qed.
Print Assumptions C123_duplicates_refuted.

Theorem C123_exact : forall eps nans sch generics mode x y rx ry, wf_schema sch -> (forall t ts, In (t, ts) sch -> frameable ts) ->
  comparable eps sch generics x rx -> comparable eps sch generics y ry -> num_ltb eps (of_int 0) = false ->
  exists b, pan_same_data eps nans sch generics mode x y = Some b /\
    (b = true <->
     (forall t ts, In (t, ts) sch -> rows_alike (alike eps nans false) ts (rx t) (ry t)) /\
     (forall t, In t generics -> frames_alike (alike eps nans false) (x t) (y t))).
Proof. exact pan_same_exact. Qed.
Print Assumptions C123_exact.

Definition w123_g1 : frame := mkFr [] [CName "p"; CName "q"] [([], [w121_n 1; w121_n 2]); ([], [w121_n 3; w121_n 4])].
Definition w123_g2 : frame := mkFr [] [CName "q"; CName "p"] [([], [w121_n 4; w121_n 3]); ([], [w121_n 2; w121_n 1])].
Definition w123_rows (a b : Z) : string -> list (list value) := fun _ => [[VStr "a"; w121_n a]; [VStr "b"; w121_n b]].

Lemma w123_comparable : forall a b g, generic_ok (tolerable w121_eps) g -> comparable w121_eps w123_sch ["log"] (w123_pan a b g) (w123_rows a b).
Proof.
  intros a b g Hg. split.
  - intros t ts [H | []]. injection H as <- <-. cbn [w123_pan String.eqb Ascii.eqb Bool.eqb].
    refine (conj _ (conj _ (conj _ (conj _ _)))).
    + split; [repeat (constructor; [simpl; intuition discriminate |]); constructor |]. intros r [<- | [<- | []]]; auto.
    + intros f [<- | [<- | []]]; simpl; auto.
    + unfold reads_rows. constructor; [| constructor; [| constructor]].
      * constructor; [left; exists 0; auto | constructor; [left; exists 1; auto | constructor]].
      * constructor; [left; exists 0; auto | constructor; [left; exists 1; auto | constructor]].
    + intros _. unfold no_equal_keys. cbn. constructor; [intros [H | []]; discriminate | constructor; [intros [] | constructor]].
    + intros r [<- | [<- | []]]; constructor; [intros _; discriminate | constructor | intros _; discriminate | constructor].
  - intros t [<- | []]. exact Hg.
Qed.
Lemma w123_g1_ok : generic_ok (tolerable w121_eps) w123_g1.
Proof.
  split; [split; [repeat (constructor; [simpl; intuition discriminate |]); constructor | intros r [<- | [<- | []]]; auto] |].
  split; [intros c [<- | [<- | []]]; eauto |]. intros r [<- | [<- | []]]; repeat (constructor; [intros _; discriminate |]); constructor.
Qed.

Example C123_ex : comparable w121_eps w123_sch ["log"] (w123_pan 1000000 7 w123_g1) (w123_rows 1000000 7) /\
  pan_same_data w121_eps false w123_sch ["log"] "assert" (w123_pan 1000000 7 w123_g1) (w123_pan 1000001 7 w123_g2) = Some true /\
  pan_same_data w121_eps false w123_sch ["log"] "assert" (w123_pan 1000000 7 w123_g1) (w123_pan 1000001 8 w123_g2) = Some false.
Proof.
  split; [exact (w123_comparable 1000000 7 w123_g1 w123_g1_ok) |]. split; vm_compute; reflexivity.
Qed.
