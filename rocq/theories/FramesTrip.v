(** * TicDat objects to DataFrames and back. *)
From Coq Require Import ZArith Bool List String Arith Lia.
From Verif Require Import PyVal PyValFacts PyDict PyDictFacts ListFacts Data FindTypes FindTypesFacts FK Obj ObjFacts ObjMore
  Factory FactoryFacts GraphFacts InfIO Json ObjRows TripFacts Csv CsvTrip Frames FramesFacts.
Import ListNotations.
Local Open Scope string_scope.
Local Open Scope list_scope.

(** ** The constructor, all tables *)

(** A table argument gives the table [tb] ([n] rows were given). *)
Definition table_arg (sch : schema) (dv : defaults) (t : string) (a : pattr) (tb : otable) : Prop :=
  exists ts fr, In (t, ts) sch /\ a = PFrame fr /\ frame_table dv t ts fr = Some tb.

Definition arg_rows (a : pattr) : nat := match a with PFrame fr => List.length (fr_rows fr) | _ => 0 end.

Theorem from_frames_exact : forall sch generics dv mode (d0 : obj) inputs, wf_schema sch -> NoDup (map fst inputs) ->
  (forall t, In t generics -> ~ In t (map fst sch)) ->
  (forall t a, In (t, a) inputs -> (In t generics /\ exists fr, a = PFrame fr) \/ (~ In t generics /\ table_arg sch dv t a (d0 t))) ->
  (forall t ts, In (t, ts) sch -> ~ In t (map fst inputs) -> d0 t = no_rows ts) ->
  ((mode = "assert" /\ exists t a, In (t, a) inputs /\ ~ In t generics /\ out_length (d0 t) < arg_rows a) ->
   from_frames sch generics dv mode inputs = None) /\
  (~ (mode = "assert" /\ exists t a, In (t, a) inputs /\ ~ In t generics /\ out_length (d0 t) < arg_rows a) ->
   exists e gs, from_frames sch generics dv mode inputs = Some (e, gs) /\
     (forall t ts, In (t, ts) sch -> e t = d0 t) /\
     (forall t fr, In (t, fr) gs <-> In t generics /\ In (t, PFrame fr) inputs)).
Proof.
  intros sch generics dv mode d0 inputs W Hn Hd Hin Hout.
  assert (forall t a, In (t, a) inputs -> frame_one sch generics dv (t, a) =
            Some (t, if mem_str t generics then inr (match a with PFrame fr => fr | _ => mkFr [] [] [] end) else inl (d0 t, arg_rows a))) as Hb.
  { intros t a Hi. unfold frame_one. cbn [fst snd]. destruct (Hin _ _ Hi) as [[Hg (fr & ->)] | [Hg (ts & fr & Hs & -> & E)]].
    - now rewrite (proj2 (mem_str_iff t generics) Hg).
    - assert (mem_str t generics = false) as -> by (apply not_true_is_false; rewrite mem_str_iff; auto).
      rewrite (proj2 (schema_get sch t ts (proj1 W)) Hs), E. reflexivity. }
  set (g := fun ta : string * pattr => (fst ta, if mem_str (fst ta) generics then inr (match snd ta with PFrame fr => fr | _ => mkFr [] [] [] end) else @inl (otable * nat) frame (d0 (fst ta), arg_rows (snd ta)))).
  assert (map_opt (frame_one sch generics dv) inputs = Some (map g inputs)) as E.
  { clear - Hb. induction inputs as [| [t a] l IH]; auto. cbn [map_opt map]. rewrite (Hb t a) by (simpl; auto). rewrite IH; auto. intros; apply Hb; simpl; auto. }
  unfold from_frames. rewrite E. cbv zeta.
  assert (forall t a, In (t, a) inputs -> dget String.eqb (map g inputs) t = Some (snd (g (t, a)))) as Hget.
  { intros t a Hi. apply dget_In_NoDup.
    - rewrite map_map. exact Hn.
    - apply in_map_iff. exists (t, a). auto. }
  assert (existsb (fun tb : string * (otable * nat + frame) => match snd tb with inl (tb, n) => Nat.ltb (out_length tb) n | inr _ => false end) (map g inputs) = true <->
          exists t a, In (t, a) inputs /\ ~ In t generics /\ out_length (d0 t) < arg_rows a) as Hx.
  { rewrite existsb_exists. split.
    - intros (x & Hx & Hy). apply in_map_iff in Hx as ([t a] & <- & Hi). exists t, a. split; auto. unfold g in Hy. cbn [fst snd] in Hy.
      destruct (mem_str t generics) eqn:Em; [discriminate |]. apply Nat.ltb_lt in Hy. split; auto. intros H. apply mem_str_iff in H. congruence.
    - intros (t & a & Hi & Hg & L). exists (g (t, a)). split; [now apply in_map |]. unfold g. cbn [fst snd].
      assert (mem_str t generics = false) as -> by (apply not_true_is_false; rewrite mem_str_iff; auto). now apply Nat.ltb_lt. }
  destruct (String.eqb mode "assert" && existsb _ (map g inputs)) eqn:X.
  - apply andb_true_iff in X as [X1 X2]. apply String.eqb_eq in X1. apply Hx in X2. split; [auto |]. intros Hc. exfalso. apply Hc. auto.
  - split.
    + intros [H1 H2]. apply Hx in H2. rewrite H2, andb_true_r in X. apply String.eqb_eq in H1. congruence.
    + intros _. eexists. eexists. split; [reflexivity |]. split.
      * intros t ts Hs. cbv beta. destruct (in_dec string_dec t (map fst inputs)) as [Hi | Hi].
        -- apply in_map_iff in Hi as ([t' a] & Et & Hi). cbn [fst] in Et. subst t'. rewrite (Hget _ _ Hi). unfold g. cbn [fst snd].
           assert (mem_str t generics = false) as ->; auto. apply not_true_is_false. rewrite mem_str_iff. intros Hg. apply (Hd t Hg). now apply (in_map fst) in Hs.
        -- assert (dget String.eqb (map g inputs) t = None) as ->.
           { destruct (dget String.eqb (map g inputs) t) as [w |] eqn:Ew; auto. exfalso. apply dget_In in Ew as (t' & Et & Hw). apply String.eqb_eq in Et. subst t'.
             apply in_map_iff in Hw as ([t' a] & Eg & Hw). unfold g in Eg. cbn [fst snd] in Eg. injection Eg as -> _. apply Hi. now apply (in_map fst) in Hw. }
           rewrite (proj2 (schema_get sch t ts (proj1 W)) Hs). symmetry. eauto.
      * intros t fr. rewrite in_flat_map. split.
        -- intros (x & Hx0 & Hy). apply in_map_iff in Hx0 as ([t' a] & <- & Hi). unfold g in Hy. cbn [fst snd] in Hy.
           destruct (mem_str t' generics) eqn:Em; [| contradiction]. destruct Hy as [Hy | []]. injection Hy as -> <-. apply mem_str_iff in Em. split; auto.
           destruct (Hin _ _ Hi) as [[_ (fr & ->)] | [Hg _]]; [auto | contradiction].
        -- intros [Hg Hi]. exists (g (t, PFrame fr)). split; [now apply in_map |]. unfold g. cbn [fst snd]. rewrite (proj2 (mem_str_iff t generics) Hg). simpl. auto.
Qed.

(** ** The rows of a table rebuild it *)

Lemma rows_table_back : forall ts tb, table_ok ts tb ->
  match tb with OKeyed l => no_equal_keys (map fst l) /\ (forall k r, In (k, r) l -> k = packed (key_cells k)) | OListed _ => True end ->
  rows_table ts (full_rows tb) = tb.
Proof.
  intros ts tb H K. unfold rows_table. unfold table_ok in H. destruct (tpk ts) as [| p pk] eqn:Ep; destruct tb as [l | l]; try contradiction; auto.
  cbv iota beta. rewrite <- Ep in *. destruct K as [K1 K2]. f_equal. cbn [full_rows]. rewrite map_map. cbn [fst snd].
  match goal with |- dict_of _ ?m = _ => assert (m = l) as -> end.
  { clear K1. induction l as [| [k r] l IH]; auto. cbn [map]. rewrite IH; [| intros; eapply H; simpl; eauto | intros; eapply K2; simpl; eauto]. f_equal.
    cbn [fst snd]. destruct (H k r) as [A _]; [simpl; auto |].
    assert (List.length (key_cells k) = List.length (tpk ts)) as L by (unfold key_shape in A; destruct k; simpl; auto).
    unfold key_of. rewrite <- L, firstn_app, skipn_app, Nat.sub_diag, firstn_O, app_nil_r, firstn_all, skipn_all. cbn [app skipn]. f_equal.
    rewrite (K2 k r) at 2 by (simpl; auto). unfold packed. destruct (key_cells k) as [| a [| b m]]; reflexivity. }
  apply dict_of_distinct. now apply no_equal_keys_iff.
Qed.

Section Copy.
  Variable settle : list value -> list value.
  Variable sch : schema.

  (** Pandas keeps the cells of every table. *)
  Definition obj_settled (d : obj) : Prop := forall t ts, In (t, ts) sch -> rows_settled settle (List.length (tfields ts)) (full_rows (d t)).

  Lemma names_all : forall (restrict : list string) generics, (forall t, In t restrict -> In t (map fst sch ++ generics)) ->
    forallb (fun t => mem_str t (map fst sch ++ generics)) (match restrict with [] => map fst sch ++ generics | _ => restrict end) = true.
  Proof.
    intros restrict generics H. apply forallb_forall. intros t Ht. apply mem_str_iff. destruct restrict; auto.
  Qed.

  Lemma copy_frame_total : forall drop reset ts tb, table_ok ts tb -> exists fr, copy_frame settle drop reset ts tb = Some fr.
  Proof. intros. rewrite copy_frame_exact by auto. eauto. Qed.

  (** What the copy holds for every table asked for. *)
  Theorem copied : forall generics restrict drop reset d, wf_schema sch -> obj_ok sch d ->
    (forall t, In t generics -> ~ In t (map fst sch)) -> (forall t, In t restrict -> In t (map fst sch ++ generics)) ->
    exists l, copy_to_pandas settle sch generics restrict drop reset d = Some l /\
      map fst l = (match restrict with [] => map fst sch ++ generics | _ => restrict end) /\
      (forall t a, In (t, a) l -> (In t generics /\ a = PText t) \/
         (exists ts fr, In (t, ts) sch /\ a = PFrame fr /\ copy_frame settle drop reset ts (d t) = Some fr)).
  Proof.
    intros generics restrict drop reset d W Ok Hd Hr. unfold copy_to_pandas. rewrite names_all by auto.
    assert (forall t, In t (match restrict with [] => map fst sch ++ generics | _ => restrict end) -> In t (map fst sch ++ generics)) as Hs by (destruct restrict; auto).
    revert Hs. generalize (match restrict with [] => map fst sch ++ generics | _ => restrict end). clear Hr restrict. intros names Hs.
    induction names as [| t names IH]; [exists []; simpl; intuition |].
    destruct IH as (l & E & F & G); [intros; apply Hs; simpl; auto |]. cbn [map_opt].
    destruct (mem_str t generics) eqn:Em.
    - cbn [option_map]. rewrite E. eexists. split; [reflexivity |]. split; [simpl; now rewrite F |]. intros t0 a [H | H]; auto. injection H as <- <-.
      left. split; auto. now apply mem_str_iff.
    - assert (In t (map fst sch)) as Ht.
      { destruct (in_app_or _ _ _ (Hs t (or_introl eq_refl))) as [H | H]; auto. apply mem_str_iff in H. congruence. }
      apply in_map_iff in Ht as ([t' ts] & Et & Hts). cbn [fst] in Et. subst t'.
      rewrite (proj2 (schema_get sch t ts (proj1 W)) Hts). destruct (copy_frame_total drop reset ts (d t) (Ok _ _ Hts)) as [fr Ef]. rewrite Ef. cbn [option_map].
      rewrite E. eexists. split; [reflexivity |]. split; [simpl; now rewrite F |]. intros t0 a [H | H]; auto. injection H as <- <-. right. eauto.
  Qed.

  (** A copied table reads back. *)
  Theorem copy_reads : forall drop reset t ts d fr, wf_schema sch -> obj_ok sch d -> In (t, ts) sch ->
    rows_settled settle (List.length (tfields ts)) (full_rows (d t)) -> copy_frame settle drop reset ts (d t) = Some fr ->
    rect fr /\ reads_rows ts fr (full_rows (d t)) /\ keys_found ts fr /\ (forall f, In f (tdf ts) -> In (CName f) (fr_cols fr)).
  Proof.
    intros drop reset t ts d fr W Ok Hin S E. pose proof (full_rows_length ts (d t) (Ok _ _ Hin)) as L.
    pose proof (proj2 W _ _ Hin) as Wt. rewrite copy_frame_exact in E by (eapply Ok; eauto). rewrite (settled_id settle) in E by auto.
    destruct (plain_reads ts (full_rows (d t)) Wt L) as [P1 P2].
    assert (rect (plain_frame ts (full_rows (d t))) /\ reads_rows ts (plain_frame ts (full_rows (d t))) (full_rows (d t)) /\ keys_found ts (plain_frame ts (full_rows (d t))) /\
            (forall f, In f (tdf ts) -> In (CName f) (fr_cols (plain_frame ts (full_rows (d t)))))) as Plain.
    { split; auto. split; auto. split.
      - left. intros p Hp. simpl. apply in_map. apply in_or_app. auto.
      - intros f Hf. simpl. apply in_map. apply in_or_app. auto. }
    destruct (full_rows (d t)) as [| r0 rows] eqn:Er; [injection E as <-; exact Plain |].
    destruct (tpk ts) as [| p pk] eqn:Ep; [injection E as <-; exact Plain |]. cbv zeta in E. rewrite (settled_id settle) in E by auto.
    destruct reset; [injection E as <-; exact Plain |]. rewrite <- Ep in *.
    assert (set_index (List.length (tpk ts)) (drops drop ts) (plain_frame ts (r0 :: rows)) = fr) as <- by (unfold plain_frame; congruence).
    destruct (indexed_reads ts (r0 :: rows) (drops drop ts) Wt L) as (A & B & C & D).
    split; auto. split; auto. split.
    - unfold keys_found. rewrite C, D. destruct (drops drop ts); [right | left].
      + split; auto. intros q Hq Hc. apply in_map_iff in Hc as (q' & Eq & Hc). injection Eq as ->. unfold wf_tschema, tfields in Wt. eapply NoDup_app_disj; eauto.
      + intros q Hq. apply in_map. apply in_or_app. auto.
    - intros f Hf. rewrite D. apply in_map. destruct (drops drop ts); auto. apply in_or_app. auto.
  Qed.
End Copy.

(** Rows are lost exactly if two of them have equal keys. *)
Lemma rows_table_lost : forall ts rs, (out_length (rows_table ts rs) < List.length rs <-> tpk ts <> [] /\ ~ no_equal_keys (map (key_of ts) rs)) /\
  (tpk ts = [] -> out_length (rows_table ts rs) = List.length rs).
Proof.
  intros ts rs. unfold rows_table. destruct (tpk ts) as [| p pk] eqn:Ep.
  - cbn [out_length]. split; [split; [intros X; exfalso; revert X; apply Nat.lt_irrefl | tauto] | auto].
  - split; [| discriminate]. rewrite <- Ep. cbv iota. cbn [out_length]. set (pairs := map (fun r => (key_of ts r, skipn (List.length (tpk ts)) r)) rs).
    assert (map fst pairs = map (key_of ts) rs) as <- by (unfold pairs; now rewrite map_map).
    assert (List.length pairs = List.length rs) as <- by (unfold pairs; now rewrite map_length).
    pose proof (dupdate_lost pairs [] I) as H. pose proof (dupdate_length pkey_eqb pairs []) as L. cbn [List.length plus app] in H, L. unfold dict_of, row in *.
    rewrite <- no_equal_keys_iff. split.
    + intros X. split; [congruence |]. intros Y. apply H in Y. lia.
    + intros [_ X]. destruct (Nat.eq_dec (List.length (dupdate pkey_eqb [] pairs)) (List.length pairs)) as [Y | Y]; [| lia]. exfalso. apply X. now apply H.
Qed.
