(** * The reader's cache, and columns of CSV files. *)
From Coq Require Import ZArith Bool List String Arith Lia Permutation.
From Verif Require Import PyVal PyValFacts PyDict PyDictFacts PyStr ListFacts TypeDict Data FindTypes FindTypesFacts FK Obj ObjFacts ObjMore
  Factory FactoryFacts InfIO InfIOFacts Params Names NamesFacts Utils UtilsMore Json ObjRows JsonFacts JsonDups TripFacts Csv.
Import ListNotations.
Local Open Scope string_scope.
Local Open Scope list_scope.

Lemma tf_eqb_spec : forall a b, tf_eqb a b = true <-> a = b.
Proof.
  intros [a b] [c d]. unfold tf_eqb. cbn [fst snd]. rewrite andb_true_iff, !String.eqb_eq. split; [intros [-> ->] | intros E; injection E]; auto.
Qed.

Section Cache.
  Variable date_of : value -> option Z.
  Variable float_of : value -> option value.

  Let rrun := rrun date_of float_of.

  (** Is the cell of the field read by this step? *)
  Definition csv_reads (t x : string) (o : rop) : Prop := exists v, o = RCsv t x v.
  Definition xls_reads (t x : string) (o : rop) : Prop := exists g inf v, o = RXls g inf t x v.

  Lemma dget_new : forall (c : set_cache) t x t' x' s,
    dget tf_eqb (dset tf_eqb c (t', x') s) (t, x) = if tf_eqb (t', x') (t, x) then Some s else dget tf_eqb c (t, x).
  Proof.
    intros c t x t' x' s. apply dget_dset; intros; rewrite ?tf_eqb_spec in *; try congruence.
    apply eq_true_iff_eq. rewrite !tf_eqb_spec. now split.
  Qed.

  Lemma get_keeps : forall f c t x t' x' s, dget tf_eqb c (t, x) = Some s -> dget tf_eqb (snd (get_dv_dt f c t' x')) (t, x) = Some s.
  Proof.
    intros f c t x t' x' s H. unfold get_dv_dt. destruct (dget tf_eqb c (t', x')) as [s' |] eqn:E; auto. cbn [snd].
    rewrite dget_new. destruct (tf_eqb (t', x') (t, x)) eqn:E'; auto. apply tf_eqb_spec in E'. injection E' as -> ->. congruence.
  Qed.

  Lemma get_other : forall f c t x t' x', (t', x') <> (t, x) -> dget tf_eqb c (t, x) = None -> dget tf_eqb (snd (get_dv_dt f c t' x')) (t, x) = None.
  Proof.
    intros f c t x t' x' N H. unfold get_dv_dt. destruct (dget tf_eqb c (t', x')) as [s' |] eqn:E; auto. cbn [snd].
    rewrite dget_new. destruct (tf_eqb (t', x') (t, x)) eqn:E'; auto. apply tf_eqb_spec in E'. contradiction.
  Qed.

  Lemma csv_cache : forall f c t x v, snd (csv_read date_of float_of f c t x v) = if treats_params f t then c else snd (get_dv_dt f c t x).
  Proof. intros. unfold csv_read. destruct (treats_params f t); auto. now destruct (get_dv_dt f c t x). Qed.

  Lemma xls_cache : forall f c g i t x v, snd (xls_read date_of float_of f c g i t x v) = snd (get_dv_dt f c t x).
  Proof. intros. unfold xls_read. now destruct (get_dv_dt f c t x). Qed.

  Lemma csv_kept : forall h s t x w, dget tf_eqb (r_csv s) (t, x) = Some w -> dget tf_eqb (r_csv (rrun s h)) (t, x) = Some w.
  Proof.
    induction h as [| o h IH]; intros s t x w H; auto. cbn. apply IH. destruct o; cbn [rstep r_csv]; auto.
    rewrite csv_cache. destruct (treats_params _ _); auto. now apply get_keeps.
  Qed.

  Lemma csv_unread : forall h s t x, (forall o, In o h -> ~ csv_reads t x o) -> dget tf_eqb (r_csv s) (t, x) = None ->
    dget tf_eqb (r_csv (rrun s h)) (t, x) = None.
  Proof.
    induction h as [| o h IH]; intros s t x N H; auto. cbn. apply IH. { intros o' Ho. apply N. simpl. auto. }
    specialize (N o (or_introl eq_refl)). destruct o as [o | t' x' v |]; cbn [rstep r_csv]; auto.
    rewrite csv_cache. destruct (treats_params _ _); auto. apply get_other; auto. intros E. injection E as -> ->. apply N. now exists v.
  Qed.

  Lemma xls_kept : forall h s t x w, dget tf_eqb (r_xls s) (t, x) = Some w -> dget tf_eqb (r_xls (rrun s h)) (t, x) = Some w.
  Proof.
    induction h as [| o h IH]; intros s t x w H; auto. cbn. apply IH. destruct o; cbn [rstep r_xls]; auto.
    rewrite xls_cache. now apply get_keeps.
  Qed.

  Lemma xls_unread : forall h s t x, (forall o, In o h -> ~ xls_reads t x o) -> dget tf_eqb (r_xls s) (t, x) = None ->
    dget tf_eqb (r_xls (rrun s h)) (t, x) = None.
  Proof.
    induction h as [| o h IH]; intros s t x N H; auto. cbn. apply IH. { intros o' Ho. apply N. simpl. auto. }
    specialize (N o (or_introl eq_refl)). destruct o as [o | | g i t' x' v]; cbn [rstep r_xls]; auto.
    rewrite xls_cache. apply get_other; auto. intros E. injection E as -> ->. apply N. now exists g, i, v.
  Qed.

  (** A field that was read: the settings of the first read. *)
  Theorem csv_first : forall f h1 v0 h2 t x v,
    let s1 := rrun (fresh f) h1 in let s := rrun s1 (RCsv t x v0 :: h2) in
    (forall o, In o h1 -> ~ csv_reads t x o) -> treats_params (r_fac s1) t = false ->
    fst (csv_read date_of float_of (r_fac s) (r_csv s) t x v) = csv_with date_of float_of (r_fac s) (dv_dt (r_fac s1) t x) t x v.
  Proof.
    intros f h1 v0 h2 t x v s1 s N P.
    assert (dget tf_eqb (r_csv s) (t, x) = Some (dv_dt (r_fac s1) t x)) as E.
    { unfold s. cbn. apply csv_kept. cbn [rstep r_csv]. rewrite csv_cache, P. unfold get_dv_dt.
      replace (dget tf_eqb (r_csv s1) (t, x)) with (@None settings); [| symmetry; now apply csv_unread].
      cbn [snd]. rewrite dget_new. replace (tf_eqb (t, x) (t, x)) with true; auto. symmetry. now apply tf_eqb_spec. }
    unfold csv_read. destruct (treats_params (r_fac s) t) eqn:T.
    - unfold csv_with. now rewrite T.
    - unfold get_dv_dt. rewrite E. reflexivity.
  Qed.

  (** A field that was never read: the settings of now. *)
  Theorem csv_never : forall f h t x v, let s := rrun (fresh f) h in
    (forall o, In o h -> ~ csv_reads t x o) ->
    fst (csv_read date_of float_of (r_fac s) (r_csv s) t x v) = csv_cell date_of float_of (r_fac s) t x v.
  Proof.
    intros f h t x v s N. unfold csv_read, csv_cell. destruct (treats_params (r_fac s) t) eqn:T.
    - unfold csv_with. now rewrite T.
    - unfold get_dv_dt. replace (dget tf_eqb (r_csv s) (t, x)) with (@None settings); auto. symmetry. now apply csv_unread.
  Qed.

  Theorem xls_first : forall f h1 g0 i0 v0 h2 g i t x v,
    let s1 := rrun (fresh f) h1 in let s := rrun s1 (RXls g0 i0 t x v0 :: h2) in
    (forall o, In o h1 -> ~ xls_reads t x o) ->
    fst (xls_read date_of float_of (r_fac s) (r_xls s) g i t x v) = xls_with date_of float_of (r_fac s) (dv_dt (r_fac s1) t x) g i t x v.
  Proof.
    intros f h1 g0 i0 v0 h2 g i t x v s1 s N.
    assert (dget tf_eqb (r_xls s) (t, x) = Some (dv_dt (r_fac s1) t x)) as E.
    { unfold s. cbn. apply xls_kept. cbn [rstep r_xls]. rewrite xls_cache. unfold get_dv_dt.
      replace (dget tf_eqb (r_xls s1) (t, x)) with (@None settings); [| symmetry; now apply xls_unread].
      cbn [snd]. rewrite dget_new. replace (tf_eqb (t, x) (t, x)) with true; auto. symmetry. now apply tf_eqb_spec. }
    unfold xls_read, get_dv_dt. now rewrite E.
  Qed.

  Theorem xls_never : forall f h g i t x v, let s := rrun (fresh f) h in
    (forall o, In o h -> ~ xls_reads t x o) ->
    fst (xls_read date_of float_of (r_fac s) (r_xls s) g i t x v) = xls_with date_of float_of (r_fac s) (dv_dt (r_fac s) t x) g i t x v.
  Proof.
    intros f h g i t x v s N. unfold xls_read, get_dv_dt.
    replace (dget tf_eqb (r_xls s) (t, x)) with (@None settings); auto. symmetry. now apply xls_unread.
  Qed.

  Lemma rrun_app : forall h1 h2 s, rrun s (h1 ++ h2) = rrun (rrun s h1) h2.
  Proof. intros. unfold rrun, Csv.rrun. apply fold_left_app. Qed.

  Lemma first_split (P : rop -> Prop) (Pd : forall o, {P o} + {~ P o}) : forall h,
    (forall o, In o h -> ~ P o) \/ exists h1 o h2, h = h1 ++ o :: h2 /\ P o /\ forall o', In o' h1 -> ~ P o'.
  Proof.
    induction h as [| o h IH]; [left; intros ? [] |]. destruct (Pd o) as [H | H].
    - right. exists [], o, h. simpl. repeat split; auto.
    - destruct IH as [IH | (h1 & o1 & h2 & -> & H1 & H2)].
      + left. intros o' [<- | Ho]; auto.
      + right. exists (o :: h1), o1, h2. simpl. repeat split; auto. intros o' [<- | Ho]; auto.
  Qed.

  Lemma csv_reads_dec : forall t x o, {csv_reads t x o} + {~ csv_reads t x o}.
  Proof.
    intros t x [o | t' x' v | g i t' x' v].
    - right. intros [v E]. discriminate.
    - destruct (string_dec t' t) as [-> | N]; [| right; intros [w E]; injection E; auto].
      destruct (string_dec x' x) as [-> | N]; [left; now exists v | right; intros [w E]; injection E; auto].
    - right. intros [w E]. discriminate.
  Qed.
  Lemma xls_reads_dec : forall t x o, {xls_reads t x o} + {~ xls_reads t x o}.
  Proof.
    intros t x [o | t' x' v | g i t' x' v].
    - right. intros (? & ? & ? & E). discriminate.
    - right. intros (? & ? & ? & E). discriminate.
    - destruct (string_dec t' t) as [-> | N]; [| right; intros (? & ? & ? & E); injection E; auto].
      destruct (string_dec x' x) as [-> | N]; [left; now exists g, i, v | right; intros (? & ? & ? & E); injection E; auto].
  Qed.

  (** The settings of now, if they were the same at every earlier read of the
      field. *)
  Theorem csv_current : forall f h t x v, let s := rrun (fresh f) h in
    (forall h1 v0 h2, h = h1 ++ RCsv t x v0 :: h2 -> treats_params (r_fac (rrun (fresh f) h1)) t = false /\
       dv_dt (r_fac (rrun (fresh f) h1)) t x = dv_dt (r_fac s) t x) ->
    fst (csv_read date_of float_of (r_fac s) (r_csv s) t x v) = csv_cell date_of float_of (r_fac s) t x v.
  Proof.
    intros f h t x v s H. destruct (first_split (csv_reads t x) (csv_reads_dec t x) h) as [N | (h1 & o & h2 & E & (v0 & ->) & N)].
    - now apply csv_never.
    - destruct (H _ _ _ E) as [P D]. unfold csv_cell. rewrite <- D. unfold s. rewrite E, rrun_app. now apply csv_first.
  Qed.

  Theorem xls_current : forall f h g i t x v, let s := rrun (fresh f) h in
    (forall h1 g0 i0 v0 h2, h = h1 ++ RXls g0 i0 t x v0 :: h2 -> dv_dt (r_fac (rrun (fresh f) h1)) t x = dv_dt (r_fac s) t x) ->
    fst (xls_read date_of float_of (r_fac s) (r_xls s) g i t x v) = xls_with date_of float_of (r_fac s) (dv_dt (r_fac s) t x) g i t x v.
  Proof.
    intros f h g i t x v s H. destruct (first_split (xls_reads t x) (xls_reads_dec t x) h) as [N | (h1 & o & h2 & E & (g0 & i0 & v0 & ->) & N)].
    - now apply xls_never.
    - pose proof (H _ _ _ _ _ E) as D. rewrite <- D. unfold s. rewrite E, rrun_app. now apply xls_first.
  Qed.
End Cache.
