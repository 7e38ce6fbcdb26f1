(** * Properties C92 - C96: the command line and its integrity report *)
From Coq Require Import ZArith Bool List String Ascii Arith Lia.
From Verif Require Import PyVal PyValFacts PyDict TypeDict Data FindTypes FindTypesFacts FK FKFacts PanFKFacts WfCheck FKWitness
  PanTypes PanTypesFacts Main MainFacts MainOpts Integrity IntegrityFacts IntegrityTic.
Import ListNotations.
Local Open Scope string_scope.
Local Open Scope list_scope.

(** ** C92 What a run does *)

(** The integrity check, if asked for, finds nothing and its report can be written: by a PanDatFactory,
    which writes no .sql and no Access files. *)
Definition approved {D} (tic : bool) (integrity : D -> option nat) (err : option string) (d : D) : Prop :=
  forall e, err = Some e -> e <> "" -> integrity d = Some 0 /\ exists f, documented tic e f /\ f <> FSql /\ f <> FMdb.

Lemma approved_iff : forall D tic integrity err (d : D), checked D tic integrity err d <-> approved tic integrity err d.
Proof.
  intros D tic integrity err d. unfold checked, approved. split; intros H e H1 H2; destruct (H e H1 H2) as (H3 & f & H4); (split; [exact H3 |]);
  exists f; now apply report_documented.
Qed.

(** A run with an input and an output path and no Foresta file: [solve] is called exactly when the input can be read (and has
    no duplicates, where they are looked for) and the integrity check, if asked for, finds nothing; it is called once,
    with the data that was read; the solution is written exactly when there is one (alone or as the second of a pair), once,
    last, to the output path in the format of its ending; the integrity report is written exactly when it was asked for and
    could be made. *)
Theorem C92_run : forall D S tic exists_ isfile isdir dups read integrity solve foresta remote upload download argv opts rest s,
  getopt argv = Some (opts, rest) -> settle_opts opts defaults0 = Some s -> plain s ->
  let t := main D S tic exists_ isfile isdir dups read integrity solve foresta remote upload download argv in
  let ev := fst t in
  (forall x, In (ESolve D S x) ev <->
     exists d, x = Some d /\ loads D tic exists_ isfile isdir dups read (s_in s) d /\ approved tic integrity (s_err s) d) /\
  (forall g p x, In (EWriteSln D S g p x) ev <->
     p = s_out s /\ documented tic p g /\
     exists d r, In (ESolve D S (Some d)) ev /\ solve (Some d) = Some r /\ (r = RSln S x \/ r = RPair S (RSln S x))) /\
  (forall g p, In (EWriteErr D S g p) ev <->
     s_err s = Some p /\ p <> "" /\ documented tic p g /\ g <> FSql /\ g <> FMdb /\
     exists d n, loads D tic exists_ isfile isdir dups read (s_in s) d /\ integrity d = Some n) /\
  (In (ENoSolution D S) ev <->
     exists d r, In (ESolve D S (Some d)) ev /\ solve (Some d) = Some r /\ (r = RFalsy S \/ r = RPair S (RFalsy S))) /\
  List.length (filter (is_solve D S) ev) <= 1 /\
  List.length (filter (is_write D S) ev) <= 1 /\
  (forall l g p x l', ev = l ++ EWriteSln D S g p x :: l' -> l' = [] /\ exists d, In (ESolve D S (Some d)) l).
Proof.
  intros D S tic exists_ isfile isdir dups read integrity solve foresta remote upload download argv opts rest s H1 H2 Hp t ev.
  assert (t = run D S tic exists_ isfile isdir dups read integrity solve foresta remote upload download s) as Et.
  { unfold t, main. now rewrite H1, H2. }
  unfold ev. rewrite Et.
  destruct (run_exact D S tic exists_ isfile isdir dups read integrity solve foresta remote upload download s Hp) as (A & B & C & E & F & G & H & _).
  split; [| split; [| split; [| split; [| auto]]]].
  - intros x. rewrite A. split; intros (d & X & Y & Z); exists d; (split; [exact X | split; [exact Y | now apply approved_iff]]).
  - intros g p x. rewrite B, writer_documented. split; intros (X & Y & d & r & U & V & W); (split; [exact X | split; [exact Y |]]); exists d, r;
    (split; [exact U | split; [exact V | now apply unpack_solution]]).
  - intros g p. rewrite C, report_documented. tauto.
  - rewrite E. split; intros (d & r & U & V & W); exists d, r; (split; [exact U | split; [exact V | now apply unpack_none]]).
Qed.
Print Assumptions C92_run.

(** Such a run ends normally exactly when it found no input, reported errors, or solve returned a solution or none; otherwise it
    ends with an exception. *)
Theorem C92_ending : forall D S tic exists_ isfile isdir dups read integrity solve foresta remote upload download argv opts rest s,
  getopt argv = Some (opts, rest) -> settle_opts opts defaults0 = Some s -> plain s ->
  let t := main D S tic exists_ isfile isdir dups read integrity solve foresta remote upload download argv in
  (snd t = Finished <->
     exists_ (s_in s) = false \/
     exists d, loads D tic exists_ isfile isdir dups read (s_in s) d /\
       ((exists p n g, s_err s = Some p /\ p <> "" /\ integrity d = Some (Datatypes.S n) /\ documented tic p g /\ g <> FSql /\ g <> FMdb) \/
        (approved tic integrity (s_err s) d /\
         exists r, solve (Some d) = Some r /\
           ((r = RFalsy S \/ r = RPair S (RFalsy S)) \/ exists x, r = RSln S x \/ r = RPair S (RSln S x))))) /\
  (snd t = Finished \/ snd t = Crashed).
Proof.
  intros D S tic exists_ isfile isdir dups read integrity solve foresta remote upload download argv opts rest s H1 H2 Hp t.
  assert (t = run D S tic exists_ isfile isdir dups read integrity solve foresta remote upload download s) as ->.
  { unfold t, main. now rewrite H1, H2. }
  destruct (run_ends D S tic exists_ isfile isdir dups read integrity solve foresta remote upload download s Hp) as [A B].
  split; [| exact B]. rewrite A. split; (intros [H | (d & Hl & [(p & n & g & X & Y & Z & W) | [X Y]])]; [now left | right; exists d; split; auto | right; exists d; split; auto]).
  - left. exists p, n, g. rewrite report_documented in W. tauto.
  - right. split; [now apply approved_iff | exact Y].
  - left. exists p, n, g. rewrite report_documented. tauto.
  - right. split; [now apply approved_iff | exact Y].
Qed.
Print Assumptions C92_ending.

Definition demo_main (dup : bool) (errs : nat) (res : result nat) : list string -> trace nat nat :=
  main nat nat true (fun p => String.eqb p "in.json") (fun p => String.eqb p "in.json") (fun _ => false)
    (fun _ _ => Some dup) (fun _ _ => Some 7) (fun _ => Some errs) (fun _ => Some res) (fun _ => None) (fun _ => None) (fun _ => false) None.

Example C92_ex :
  let argv := ["-i"; "in.json"; "--out=out.db"; "-ebad"] in
  exists opts s, getopt argv = Some (opts, []) /\ settle_opts opts defaults0 = Some s /\ plain s /\
    demo_main false 0 (RPair nat (RSln nat 3)) argv =
      ([ECheckDups nat nat FJson "in.json"; ERead nat nat FJson "in.json"; EIntegrity nat nat (Some 7); EWriteErr nat nat FCsv "bad";
        ESolve nat nat (Some 7); EWriteSln nat nat FDb "out.db" 3], Finished) /\
    demo_main false 2 (RSln nat 3) argv =
      ([ECheckDups nat nat FJson "in.json"; ERead nat nat FJson "in.json"; EIntegrity nat nat (Some 7); EWriteErr nat nat FCsv "bad"], Finished) /\
    demo_main true 0 (RSln nat 3) argv = ([ECheckDups nat nat FJson "in.json"], Crashed).
Proof.
  eexists. eexists. split; [vm_compute; reflexivity |]. split; [vm_compute; reflexivity |].
  split; [split; [discriminate | split; [discriminate | now left]] |].
  split; [vm_compute; reflexivity | split; vm_compute; reflexivity].
Qed.

(** An empty input path is not "not a valid input file": solve is called without data.  An empty output path is found out
    after solving. *)
Theorem C92_empty_input_refuted : exists argv, getopt argv = Some ([(KInput, "")], []) /\
  forall r, demo_main false 0 r argv = (ESolve nat nat None :: fst (finish nat nat (Some (FXls, "output.xlsx")) (unpack nat r)),
                                        snd (finish nat nat (Some (FXls, "output.xlsx")) (unpack nat r))).
Proof. exists ["-i"; ""]. split; [reflexivity |]. intros r. reflexivity. Qed.
Print Assumptions C92_empty_input_refuted.

Theorem C92_empty_output_refuted : exists argv opts s, getopt argv = Some (opts, []) /\ settle_opts opts defaults0 = Some s /\
  s_out s = "" /\ (exists l, demo_main false 0 (RSln nat 3) argv = (l ++ [ESolve nat nat (Some 7)], Crashed)).
Proof.
  exists ["-i"; "in.json"; "-o"; ""]. eexists. eexists. split; [vm_compute; reflexivity |]. split; [vm_compute; reflexivity |].
  split; [reflexivity |]. eexists [_; _]. vm_compute. reflexivity.
Qed.
Print Assumptions C92_empty_output_refuted.

(** The report of an integrity check is made by a PanDatFactory, but its path is judged by the endings that TicDatFactory
    knows: a report that should go to a .sql, .mdb or .accdb file is lost, and the run ends with an exception. *)
Theorem C92_error_file_refuted : forall D S exists_ isfile isdir dups read integrity solve foresta remote upload download s p d,
  s_err s = Some p -> ends_with ".sql" p = true \/ ends_with ".mdb" p = true \/ ends_with ".accdb" p = true -> plain s ->
  loads D true exists_ isfile isdir dups read (s_in s) d ->
  let t := run D S true exists_ isfile isdir dups read integrity solve foresta remote upload download s in
  snd t = Crashed /\ (forall g q, ~ In (EWriteErr D S g q) (fst t)) /\ (forall x, ~ In (ESolve D S x) (fst t)).
Proof.
  intros D S exists_ isfile isdir dups read integrity solve foresta remote upload download s p d Hs He Hp Hl t.
  assert (p <> "") as Hne by (intros ->; destruct He as [He | [He | He]]; vm_compute in He; discriminate).
  assert (write_fmt false (is_file true p) p = None) as Hw.
  { unfold write_fmt, is_file, recognized, last_fmt. simpl.
    endings p; simpl; auto; destruct He as [He | [He | He]]; discriminate. }
  destruct (run_exact D S true exists_ isfile isdir dups read integrity solve foresta remote upload download s Hp) as (A & _ & C & _ & _ & _ & _ & _).
  fold t in A, C. split; [| split].
  - destruct (run_plain D S true exists_ isfile isdir dups read integrity solve foresta remote upload download s Hp) as (f & _ & [(d' & f0 & Hl' & _ & E) | (H & _)]).
    + unfold t. rewrite E. cbn [snd]. unfold after, checking. rewrite Hs, truthy_some by auto. cbn [snd say]. rewrite Hw. destruct (integrity d'); reflexivity.
    + now apply H in Hl.
  - intros g q H. apply C in H as (H1 & _ & H2 & _). congruence.
  - intros x H. apply A in H as (d' & _ & _ & H). destruct (H p Hs Hne) as (_ & g & H'). congruence.
Qed.
Print Assumptions C92_error_file_refuted.

Example C92_error_file_ex :
  demo_main false 0 (RSln nat 3) ["-i"; "in.json"; "-e"; "bad.sql"] =
    ([ECheckDups nat nat FJson "in.json"; ERead nat nat FJson "in.json"; EIntegrity nat nat (Some 7)], Crashed).
Proof. vm_compute. reflexivity. Qed.

(** ** C93 The ending decides the format, the same for reading and writing *)

Theorem C93_written : forall tic p f, write_fmt tic (is_file tic p) p = Some f <-> documented tic p f.
Proof. exact writer_documented. Qed.
Print Assumptions C93_written.

Theorem C93_read : forall isfile isdir tic p f,
  (read_fmt isfile isdir tic p = Some f -> documented tic p f) /\
  (documented tic p f -> (if match f with FCsv => true | _ => false end then isdir p = true /\ isfile p = false else isfile p = true) ->
   read_fmt isfile isdir tic p = Some f).
Proof.
  intros isfile isdir tic p f. split.
  - intros H. apply reader_writer in H. now apply writer_documented.
  - intros H Hf. assert (is_file tic p = negb (match f with FCsv => true | _ => false end)) as Hi.
    { revert H. unfold is_file, recognized, documented. destruct f, tic; simpl; endings p; simpl; intros H; auto;
      repeat match goal with H : _ /\ _ |- _ => destruct H | H : _ \/ _ |- _ => destruct H end; try discriminate;
      match goal with H : true = true -> _ |- _ => destruct (H eq_refl) as (? & ? & ?); discriminate end. }
    apply writer_documented in H. destruct (match f with FCsv => true | _ => false end) eqn:Ef; simpl in Hi.
    + unfold read_fmt. rewrite Hi. destruct Hf as [Hf1 Hf2]. rewrite Hf1, Hf2. simpl. destruct f; discriminate || reflexivity.
    + unfold read_fmt. rewrite Hi, Hf. simpl. revert H. unfold write_fmt. rewrite Hi. unfold last_fmt, read_file_fmt.
      destruct tic; endings p; simpl; intros H; try discriminate H; auto.
Qed.
Print Assumptions C93_read.

Example C93_ex :
  documented true "a.b/model.xlsx" FXls /\ documented false "model.sql" FCsv /\ documented true "model.sql" FSql /\
  documented true "model.XLSX" FCsv /\
  read_fmt (fun _ => true) (fun _ => false) true "model.accdb" = Some FMdb.
Proof. vm_compute. repeat split; auto; discriminate. Qed.

(** Every format has its paths, and one path one format. *)
Theorem C93_one_format : forall tic p, exists f, documented tic p f /\ forall g, documented tic p g -> g = f.
Proof.
  intros tic p. destruct (writer_total tic p) as (f & H). exists f. split; [now apply writer_documented |].
  intros g Hg. apply writer_documented in Hg. congruence.
Qed.
Print Assumptions C93_one_format.

(** ** C94 Options *)

(** The last option of each kind counts, whatever else is given; -h anywhere among them means that nothing is done. *)
Theorem C94_last_counts : forall D S tic exists_ isfile isdir dups read integrity solve foresta remote upload download argv opts rest,
  getopt argv = Some (opts, rest) ->
  let t := main D S tic exists_ isfile isdir dups read integrity solve foresta remote upload download argv in
  (forall w, In (KHelp, w) opts -> t = ([], Usage 0)) /\
  ((forall w, ~ In (KHelp, w) opts) ->
   exists s, settle_opts opts defaults0 = Some s /\
     t = run D S tic exists_ isfile isdir dups read integrity solve foresta remote upload download s /\
     (forall v, last_of KInput opts v -> s_in s = v) /\ (never KInput opts -> s_in s = "input.xlsx") /\
     (forall v, last_of KOutput opts v -> s_out s = v) /\ (never KOutput opts -> s_out s = "output.xlsx") /\
     (forall v, last_of KForesta opts v -> s_foresta s = Some v) /\ (never KForesta opts -> s_foresta s = None) /\
     (forall v, last_of KErrors opts v -> s_err s = Some v) /\ (never KErrors opts -> s_err s = None)).
Proof.
  intros D S tic exists_ isfile isdir dups read integrity solve foresta remote upload download argv opts rest H t. split.
  - intros w Hw. eapply help_says_nothing; eauto.
  - intros Hn. destruct (settle_opts opts defaults0) as [s |] eqn:E.
    + exists s. split; auto. split; [unfold t, main; now rewrite H, E |].
      apply settle_last in E. exact E.
    + apply settle_help in E as (w & Hw). now apply Hn in Hw.
Qed.
Print Assumptions C94_last_counts.

Example C94_last_counts_ex :
  getopt ["-i"; "a"; "-o"; "x.json"; "--input=b"] = Some ([(KInput, "a"); (KOutput, "x.json"); (KInput, "b")], []) /\
  last_of KInput [(KInput, "a"); (KOutput, "x.json"); (KInput, "b")] "b" /\
  settle_opts [(KInput, "a"); (KOutput, "x.json"); (KInput, "b")] defaults0 = Some (mkSet "b" "x.json" None None).
Proof.
  split; [reflexivity |]. split; [| reflexivity]. exists [(KInput, "a"); (KOutput, "x.json")], []. split; auto.
Qed.

(** Which words stand for which options: [reads] lists the ways to write them, and there are no others. *)
Theorem C94_grammar : forall argv opts rest, getopt argv = Some (opts, rest) <-> reads argv opts rest.
Proof. exact getopt_exact. Qed.
Print Assumptions C94_grammar.

(** Words that cannot be read (an unknown option, a value missing or not wanted) end the run with code 2 before anything is done. *)
Theorem C94_malformed : forall D S tic exists_ isfile isdir dups read integrity solve foresta remote upload download argv,
  (forall opts rest, ~ reads argv opts rest) ->
  main D S tic exists_ isfile isdir dups read integrity solve foresta remote upload download argv = ([], Usage 2).
Proof.
  intros D S tic exists_ isfile isdir dups read integrity solve foresta remote upload download argv H. unfold main.
  destruct (getopt argv) as [[opts rest] |] eqn:E; [| reflexivity]. apply getopt_exact in E. now apply H in E.
Qed.
Print Assumptions C94_malformed.

Example C94_grammar_ex :
  reads ["-hi"; "a.json"; "--err=bad"; "--"; "-o"] [(KHelp, ""); (KInput, "a.json"); (KErrors, "bad")] ["-o"] /\ (forall opts rest, ~ reads ["--help=x"] opts rest) /\ (forall opts rest, ~ reads ["-o"] opts rest) /\
  (forall opts rest, ~ reads ["--=a"] opts rest) /\ (forall opts rest, ~ reads ["-hx"] opts rest).
Proof.
  split; [apply getopt_exact; vm_compute; reflexivity |].
  repeat match goal with |- _ /\ _ => split end; intros opts rest H; apply getopt_exact in H; vm_compute in H; discriminate H.
Qed.

(** The ways to spell an option mean the same. *)
Theorem C94_spellings : forall k c name v rest, In (c, name, k) [("i"%char, "input", KInput); ("o"%char, "output", KOutput); ("f"%char, "foresta", KForesta); ("e"%char, "errors", KErrors)] ->
  let meaning := match getopt rest with Some (l, r) => Some ((k, v) :: l, r) | None => None end in
  getopt (String "-" (String c "") :: v :: rest) = meaning /\
  getopt (("--" ++ name)%string :: v :: rest) = meaning /\
  getopt (("--" ++ name ++ "=" ++ v)%string :: rest) = meaning /\
  (v <> "" -> getopt (String "-" (String c v) :: rest) = meaning).
Proof.
  intros k c name v rest H meaning.
  destruct H as [E | [E | [E | [E | []]]]]; injection E as <- <- <-;
  (split; [reflexivity |]); (split; [reflexivity |]); (split; [reflexivity |]); intros Hv; destruct v; try congruence; reflexivity.
Qed.
Print Assumptions C94_spellings.

Example C94_spellings_ex :
  getopt ["-i"; "d"; "-h"] = Some ([(KInput, "d"); (KHelp, "")], []) /\
  getopt ["--input"; "d"; "-h"] = getopt ["--input=d"; "-h"] /\ getopt ["-id"; "-h"] = getopt ["-i"; "d"; "-h"].
Proof. repeat split. Qed.

(** A word that is not an option hides everything after it, options included, without a message. *)
Theorem C94_ignored_refuted : forall D S tic exists_ isfile isdir dups read integrity solve foresta remote upload download a rest,
  a = "" \/ a = "-" \/ (exists c s, a = String c s /\ c <> "-"%char) ->
  main D S tic exists_ isfile isdir dups read integrity solve foresta remote upload download (a :: rest) =
  main D S tic exists_ isfile isdir dups read integrity solve foresta remote upload download [].
Proof.
  intros D S tic exists_ isfile isdir dups read integrity solve foresta remote upload download a rest H. unfold main.
  rewrite getopt_app; [reflexivity |]. destruct H as [-> | [-> | (c & s & -> & H)]]; try reflexivity.
  unfold classify. destruct (Ascii.eqb_spec c "-"); [congruence | reflexivity].
Qed.
Print Assumptions C94_ignored_refuted.

Example C94_ignored_ex : exists c s, "data.json" = String c s /\ c <> "-"%char /\
  getopt ["data.json"; "--output"; "out.json"] = Some ([], ["data.json"; "--output"; "out.json"]).
Proof. eexists. eexists. split; [reflexivity |]. split; [discriminate | reflexivity]. Qed.

(** -f and -e together are called incompatible, and both are carried out. *)
Theorem C94_both_refuted : exists argv ev,
  getopt argv = Some ([(KForesta, "f.json"); (KErrors, "bad")], []) /\
  main nat nat true (fun _ => true) (fun _ => true) (fun _ => false) (fun _ _ => Some false) (fun _ _ => Some 7) (fun _ => Some 0)
    (fun _ => None) (fun _ => Some (Some MUploadSolve)) (fun _ => Some (RSln nat 3)) (fun _ => true) None argv = (ev, Finished) /\
  In (EIncompatible nat nat) ev /\ In (EIntegrity nat nat (Some 7)) ev /\ In (EWriteErr nat nat FCsv "bad") ev /\
  In (EUpload nat nat (Some 7)) ev /\ In (EWriteSln nat nat FXls "output.xlsx" 3) ev.
Proof.
  exists ["-f"; "f.json"; "-e"; "bad"]. eexists. split; [reflexivity |]. split; [vm_compute; reflexivity |].
  simpl. repeat match goal with |- _ /\ _ => split end; auto 12.
Qed.
Print Assumptions C94_both_refuted.

(** ** C95 The integrity report *)

Theorem C95_rows : forall parses sch tys fks preds d n e,
  wf_schema sch -> wf_pdat sch d -> wf_types sch tys -> good_pan_fks sch fks -> widest sch n ->
  integrity_solve parses sch [] tys fks preds d = Some e ->
  (forall t ids, In (t, ids) (e_dups e) <->
     exists i ts r, repeats_key sch d t i /\ In (t, ts) sch /\ nth_error (d t) i = Some r /\ identifies n ts r ids) /\
  (forall t f ids, In (t, f, ids) (e_types e) <->
     exists i ts r v, pan_failing parses sch tys d t f i v /\ In (t, ts) sch /\ nth_error (d t) i = Some r /\ identifies n ts r ids) /\
  (forall f ids, In (f, ids) (e_fks e) <->
     exists i ts r, In f fks /\ orphan (pan_schema sch) (as_dat d) f (RIdx i) /\ In (fk_native f, ts) sch /\
       nth_error (d (fk_native f)) i = Some r /\ identifies n ts r ids).
Proof. exact report_named. Qed.
Print Assumptions C95_rows.

(** The number that decides about solving is zero exactly when there is nothing to report. *)
Theorem C95_count : forall parses sch tys fks preds d e,
  wf_schema sch -> wf_pdat sch d -> wf_types sch tys -> good_pan_fks sch fks ->
  (forall tp rows, In (tp, PFRows rows) preds -> rows <> []) ->
  integrity_solve parses sch [] tys fks preds d = Some e ->
  (err_count e = 0 <->
   (forall t i, ~ repeats_key sch d t i) /\ (forall t f i v, ~ pan_failing parses sch tys d t f i v) /\
   (forall f i, In f fks -> ~ orphan (pan_schema sch) (as_dat d) f (RIdx i)) /\ preds = []).
Proof. intros. now apply report_clean with (parses := parses). Qed.
Print Assumptions C95_count.

(** The report is made for every schema with a table and without generic tables, whatever the data. *)
Theorem C95_returns : forall parses sch generics tys fks preds d,
  (exists e, integrity_solve parses sch generics tys fks preds d = Some e) <-> generics = [] /\ sch <> [].
Proof.
  intros parses sch generics tys fks preds d. unfold integrity_solve. split.
  - intros (e & H). destruct generics; [| discriminate]. destruct sch; [discriminate |]. now split.
  - intros [-> Hs]. destruct sch; [contradiction |]. eexists. reflexivity.
Qed.
Print Assumptions C95_returns.

(** Messages of row predicates, when the rows have the columns of the schema and, if the predicate gives messages, one more. *)
Theorem C95_messages : forall parses sch tys fks preds d e t p,
  wf_schema sch -> In t (map fst sch) -> integrity_solve parses sch [] tys fks preds d = Some e ->
  forall msg ids, In (t, p, msg, ids) (e_preds e) <->
    exists pf, In ((t, p), pf) preds /\
      match pf with
      | PFMaker m => msg = m /\ ids = repeat VNone (longest sch)
      | PFRows rows => exists r ts, In r rows /\ In (t, ts) sch /\ ids = id_cells (longest sch) ts r /\
                         (List.length r = List.length (tfields ts) -> msg = VNone) /\
                         (forall r0 m, r = r0 ++ [m] -> List.length (tfields ts) < List.length r -> msg = m) /\
                         (List.length r < List.length (tfields ts) -> msg = VNone)
      end.
Proof.
  intros parses sch tys fks preds d e t p Hs Ht H msg ids. apply in_map_iff in Ht as ([t0 ts] & E & Hin). simpl in E. subst t0.
  unfold integrity_solve in H. destruct sch as [| s0 sch0] eqn:Es; [discriminate |]. rewrite <- Es in *. clear s0 sch0 Es.
  destruct (pan_find_types parses sch tys d PInf); [| discriminate]. injection H as <-. cbn [e_preds]. rewrite in_flat_map. split.
  - intros ([[t1 p1] pf] & H1 & H2). unfold pred_rows in H2. cbn [fst snd] in H2. destruct pf as [rows | m].
    + apply in_map_iff in H2 as (r & E & Hr). injection E as -> -> <- <-. exists (PFRows rows). split; auto.
      exists r, ts. rewrite (ts_of_In sch t ts) by auto.
      split; auto. split; auto. split; auto. split; [| split].
      * intros ->. now rewrite Nat.ltb_irrefl.
      * intros r0 m -> Hl. apply Nat.ltb_lt in Hl. unfold row in *. rewrite Hl. apply last_last.
      * intros Hl. assert (Nat.ltb (List.length (tfields ts)) (List.length r) = false) as -> by (apply Nat.ltb_ge; lia). reflexivity.
    + destruct H2 as [E | []]. injection E as -> -> <- <-. exists (PFMaker m). auto.
  - intros (pf & H1 & H2). exists ((t, p), pf). split; auto. unfold pred_rows. cbn [fst snd]. destruct pf as [rows | m].
    + destruct H2 as (r & ts' & Hr & Hin' & -> & Ha & Hb & Hc). assert (ts' = ts) as -> by (rewrite <- (ts_of_In sch t ts), <- (ts_of_In sch t ts') by auto; reflexivity).
      apply in_map_iff. exists r. rewrite (ts_of_In sch t ts) by auto. split; auto. f_equal. f_equal.
      destruct (Nat.ltb_spec (List.length (tfields ts)) (List.length r)) as [Hl | Hl].
      * destruct (exists_last (l := r)) as (r0 & m & E); [intros ->; simpl in Hl; lia |]. rewrite E, last_last. symmetry. eapply Hb; eauto.
      * apply Nat.le_lteq in Hl as [Hl | Hl]; symmetry; auto.
    + destruct H2 as [-> ->]. now left.
Qed.
Print Assumptions C95_messages.

(** A column that is not in the schema ends up as the error message. *)
Theorem C95_message_refuted : exists sch d preds e r ids,
  wf_schema sch /\ integrity_solve (fun _ => false) sch [] [] [] preds d = Some e /\
  preds = [(("items", "positive"), PFRows [r])] /\ In r (d "items") /\
  In ("items", "positive", VStr "red", ids) (e_preds e).
Proof.
  exists [("items", mkT ["name"] ["cost"])], (fun _ => [[VStr "a"; VNum (of_int (-1)); VStr "red"]]),
    [(("items", "positive"), PFRows [[VStr "a"; VNum (of_int (-1)); VStr "red"]])].
  eexists. exists [VStr "a"; VNum (of_int (-1)); VStr "red"], [VStr "a"].
  split; [now apply wf_schema_ok |]. split; [vm_compute; reflexivity |]. split; [reflexivity |]. split; [now left |]. now left.
Qed.
Print Assumptions C95_message_refuted.

(** With a generic table there is no report at all. *)
Theorem C95_generic_refuted : forall parses sch g generics tys fks preds d,
  integrity_solve parses sch (g :: generics) tys fks preds d = None.
Proof. reflexivity. Qed.
Print Assumptions C95_generic_refuted.

Definition rep_sch : schema := [("parts", mkT ["id"] ["cost"]); ("log", mkT [] ["part"; "note"])].
Definition rep_fk : fk := mkFk "log" "parts" [("part", "id")].
Definition rep_dat : pdat := fun t =>
  if String.eqb t "parts" then [[VStr "a"; VNum (of_int 1)]; [VStr "b"; VNum (of_int 2)]; [VStr "a"; VNum (of_int 3)]]
  else [[VStr "a"; VStr "x"]; [VStr "z"; VStr "y"]].

Example C95_ex :
  wf_schema rep_sch /\ wf_pdat rep_sch rep_dat /\ good_pan_fks rep_sch [rep_fk] /\ widest rep_sch 2 /\
  integrity_solve (fun _ => false) rep_sch [] [] [rep_fk] [(("parts", "cheap"), PFRows [[VStr "b"; VNum (of_int 2); VStr "too dear"]])] rep_dat =
    Some (mkErr [("parts", [VStr "a"; VNone])] [] [(rep_fk, [VStr "z"; VStr "y"])]
            [("parts", "cheap", VStr "too dear", [VStr "b"; VNone])]).
Proof.
  split; [now apply wf_schema_ok |]. split; [now apply wf_pdat_ok |]. split.
  { intros f [<- | []]. split; [now apply wf_fk_ok |].
    intros i j ni fi nj fj Hij Hi Hj. destruct i as [| [| i]], j as [| [| j]]; simpl in *; try discriminate; lia. }
  split; [split|].
  - intros t ts [E | [E | []]]; injection E as <- <-; simpl; lia.
  - exists "log", (mkT [] ["part"; "note"]). split; [right; now left | reflexivity].
  - vm_compute. reflexivity.
Qed.

(** ** C96 The report agrees with the finders of TicDatFactory *)

Theorem C96_type_failures : forall parses sch tys d rep prep t i rid k r f,
  wf_schema sch -> wf_types sch tys -> wf_dat sch d ->
  find_data_type_failures parses sch tys d PInf = Some rep ->
  pan_find_types parses sch tys (pan_of d) PInf = Some prep ->
  In t (map fst sch) -> nth_error (rows_of (d t)) i = Some (rid, k, r) ->
  (pan_flagged prep t f i <-> reports_row rep t f rid).
Proof. exact same_type_failures. Qed.
Print Assumptions C96_type_failures.

Theorem C96_fk_failures : forall sch fks d rep i rid k r f,
  wf_schema sch -> wf_dat sch d -> NoDup fks ->
  (forall f, In f fks -> wf_fk sch f /\ distinct_foreign f /\ no_overwrite (fk_map f)) ->
  find_foreign_key_failures sch fks d PInf = Some rep ->
  nth_error (rows_of (d (fk_native f))) i = Some (rid, k, r) ->
  (flagged (pan_find sch fks (pan_of d)) f i <-> fk_reports_row rep f rid).
Proof. exact same_fk_failures. Qed.
Print Assumptions C96_fk_failures.

Theorem C96_verdict : forall parses sch tys fks preds d e rep frep,
  wf_schema sch -> wf_types sch tys -> wf_dat sch d -> NoDup fks ->
  (forall f, In f fks -> wf_fk sch f /\ distinct_foreign f /\ no_overwrite (fk_map f)) ->
  (forall tp rows, In (tp, PFRows rows) preds -> rows <> []) ->
  integrity_solve parses sch [] tys fks preds (pan_of d) = Some e ->
  find_data_type_failures parses sch tys d PInf = Some rep ->
  find_foreign_key_failures sch fks d PInf = Some frep ->
  (err_count e = 0 <-> rep = [] /\ frep = [] /\ preds = []).
Proof. exact same_verdict. Qed.
Print Assumptions C96_verdict.

(** A foreign key that swaps field names: the data is clean for TicDatFactory, but the command line reports an error and does
    not solve. *)
Definition sw_tic : dat := fun t =>
  if String.eqb t "edge" then Keyed [([VNum (of_int 2); VNum (of_int 1)], [])] else Keyed [([VNum (of_int 1); VNum (of_int 2)], [])].

Theorem C96_refuted : exists sch f d e,
  wf_schema sch /\ wf_fk sch f /\ distinct_foreign f /\ wf_dat sch d /\
  find_foreign_key_failures sch [f] d PInf = Some [] /\
  (forall parses, exists rep, find_data_type_failures parses sch [] d PInf = Some rep /\ rep = []) /\
  integrity_solve (fun _ => false) sch [] [] [f] [] (pan_of d) = Some e /\ err_count e = 1.
Proof.
  exists sw_sch, sw_fk, sw_tic. eexists.
  split; [now apply wf_schema_ok |]. split; [now apply wf_fk_ok |].
  split; [now apply (nodup_b_ok String.eqb String.eqb_eq) |].
  split; [now apply wf_dat_ok |].
  split; [vm_compute; reflexivity |]. split; [intros parses; eexists; split; vm_compute; reflexivity |].
  split; [vm_compute; reflexivity | reflexivity].
Qed.
Print Assumptions C96_refuted.

Definition ok_tic : dat := fun t =>
  if String.eqb t "parts" then Keyed [([VStr "a"], [VNum (of_int 1)])] else Listed [[VStr "a"; VStr "x"]; [VStr "z"; VStr "y"]].

Example C96_ex : wf_schema rep_sch /\ wf_dat rep_sch ok_tic /\ wf_fk rep_sch rep_fk /\ distinct_foreign rep_fk /\
  (exists e, integrity_solve (fun _ => false) rep_sch [] [] [rep_fk] [] (pan_of ok_tic) = Some e /\ err_count e = 1) /\
  find_foreign_key_failures rep_sch [rep_fk] ok_tic PInf = Some [(rep_fk, ([[VStr "z"]], [RIdx 1]))].
Proof.
  split; [now apply wf_schema_ok |]. split; [now apply wf_dat_ok |]. split; [now apply wf_fk_ok |].
  split; [now apply (nodup_b_ok String.eqb String.eqb_eq) |]. split; [| vm_compute; reflexivity].
  eexists. split; [vm_compute; reflexivity | reflexivity].
Qed.
