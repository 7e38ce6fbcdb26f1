(** * Property theorems: C157-C160 (log files, names, AMPL, parameters of PanDat objects). *)
From Coq Require Import ZArith Bool List String Ascii Arith Permutation.
From Verif Require Import PyVal PyValFacts PyDict PyDictFacts PyStr TypeDict Data FindTypes FindTypesFacts FK Graph GraphFacts Obj ObjFacts ObjRows Factory FactoryFacts InfIO Params ParamsFacts
  Names NamesFacts Utils Json Frames AmplData AmplTo Extras ExtrasFacts InfWitness JsonWitness.
Import ListNotations.
Local Open Scope string_scope.
Local Open Scope list_scope.

(** ** C157 log_table *)

(** The text consists of these lines. *)
Theorem C157_lines : forall A (fmt : A -> string) name head rows (mx : nat) out,
  one_line name -> (forall r x, In r (head :: rows) -> In x r -> one_line (fmt x)) ->
  log_table fmt name (head :: rows) (Z.of_nat mx) = Ret out ->
  exists notice, split_lines (concat_str out) = append "Table " (append name ":") :: notice ++
      map (fun r => concat_str (map (fun x => append (fmt x) (blanks (Utils.width (List.length head) - String.length (fmt x)))) r)) (head :: firstn mx rows) ++ [""; ""] /\
    List.length notice = if Nat.ltb mx (List.length rows) then 1 else 0.
Proof.
  intros A fmt name head rows mx out H1 H2 H3. eexists. split; [exact (logged fmt name head rows mx out H1 H2 H3) |]. now destruct (Nat.ltb _ _).
Qed.
Print Assumptions C157_lines.

(** Tables of the same size with the same text have the same name and cells, if these fit the columns and
    do not end in a blank. *)
Theorem C157_readable : forall A (fmt : A -> string) name name' head head' rows rows' (mx : nat) out out',
  List.length head = List.length head' -> List.length rows = List.length rows' -> one_line name -> one_line name' ->
  (forall r x, In r (head :: rows) \/ In r (head' :: rows') -> In x r ->
     one_line (fmt x) /\ String.length (fmt x) <= Utils.width (List.length head) /\ ends_blank (fmt x) = false) ->
  log_table fmt name (head :: rows) (Z.of_nat mx) = Ret out -> log_table fmt name' (head' :: rows') (Z.of_nat mx) = Ret out' ->
  concat_str out = concat_str out' ->
  name = name' /\ map fmt head = map fmt head' /\ map (map fmt) (firstn mx rows) = map (map fmt) (firstn mx rows').
Proof. exact @log_readable. Qed.
Print Assumptions C157_readable.

(** Cells that do not fit run together: two different tables, one text. *)
Theorem C157_refuted : exists (fmt : string -> string) name head r r' out, r <> r' /\ List.length r = List.length r' /\
  (forall x, In x r \/ In x r' -> one_line (fmt x) /\ ends_blank (fmt x) = false) /\
  log_table fmt name [head; r] 10 = Ret out /\ log_table fmt name [head; r'] 10 = Ret out.
Proof.
  pose (a := "aaaaaaaaaaaaaaaaaaaaaaaaaaaaaa"). pose (b := "bbbbbbbbbbbbbbbbbbbbbbbbbbbbbb").
  exists (fun s => s), "costs", ["from"; "to"], [append a "a"; b], [a; append "a" b]. eexists. split; [discriminate |]. split; [reflexivity |].
  split; [intros x [[<- | [<- | []]] | [<- | [<- | []]]]; split; reflexivity |]. split; reflexivity.
Qed.
Print Assumptions C157_refuted.

Example C157_ex : exists out, log_table (fun s : string => s) "costs" [["from"; "to"]; ["a"; "b"]; ["c"; "d"]] (Z.of_nat 1) = Ret out /\
  split_lines (concat_str out) = ["Table costs:"; "(Showing first 1 entries out of 2 in total)"; "from                          to                            ";
                      "a                             b                             "; ""; ""] /\
  (forall r x, In r [["from"; "to"]; ["a"; "b"]; ["c"; "d"]] -> In x r -> one_line x /\ String.length x <= Utils.width 2 /\ ends_blank x = false).
Proof.
  eexists. split; [reflexivity |]. split; [reflexivity |].
  intros r x [<- | [<- | [<- | []]]] [<- | [<- | []]]; (split; [reflexivity |]; split; [| reflexivity]); apply Nat.leb_le; reflexivity.
Qed.

(** ** C158 find_case_space_duplicates *)

(** Without generic tables: exactly the tables two of whose fields differ in case and blanks only. *)
Theorem C158_exact : forall parses f, reachable parses f -> (forall t, ~ In (t, Generic) (f_decl f)) ->
  exists l, find_case_space_duplicates f = Ret l /\ forall t fields, In (t, fields) l <->
    exists ts, In (t, Fields ts) (f_decl f) /\ fields = tfields ts /\ exists x y, In x fields /\ In y fields /\ x <> y /\
      smap (fun c => if Ascii.eqb c " " then "_"%char else c) (lower x) = smap (fun c => if Ascii.eqb c " " then "_"%char else c) (lower y).
Proof.
  intros parses f Hr Hg. apply reachable_inv in Hr.
  assert (forall t ts, In (t, Fields ts) (f_decl f) -> NoDup (tfields ts)) as N.
  { intros t ts Hin. destruct (plain_wf f (inv_decl _ _ Hr)) as [_ H]. apply (H t). now apply in_plain. }
  pose proof (case_space f N) as H. destruct (find_case_space_duplicates f) as [l |]; [| destruct H as (t & Ht); exfalso; exact (Hg t Ht)].
  exists l. split; [reflexivity |]. exact (proj2 H).
Qed.
Print Assumptions C158_exact.

(** A generic table makes it raise. *)
Theorem C158_raises : forall f t, In (t, Generic) (f_decl f) -> find_case_space_duplicates f = Raise.
Proof.
  intros f t H. unfold find_case_space_duplicates. assert (mapO (fun td : string * tdecl => match snd td with Generic => Raise | Fields ts => Ret (fst td, tfields ts) end) (f_decl f) = Raise) as ->; [| reflexivity].
  induction (f_decl f) as [| [u d] l IH]; [contradiction |]. cbn [mapO fst snd]. destruct d as [| ts]; [reflexivity |]. destruct H as [E | H]; [discriminate E |]. cbn [bindO]. now rewrite (IH H).
Qed.
Print Assumptions C158_raises.

Theorem C158_refuted : exists f, reachable (fun _ => false) f /\ find_case_space_duplicates f = Raise /\
  exists x y, In ("costs", Fields (mkT [] [x; y])) (f_decl f) /\ x = "Unit Cost" /\ y = "Unit_Cost".
Proof.
  exists (match init [("notes", Generic); ("costs", Fields (mkT [] ["Unit Cost"; "Unit_Cost"]))] with Some f => f | None => wi_f0 end).
  split; [exists [("notes", Generic); ("costs", Fields (mkT [] ["Unit Cost"; "Unit_Cost"]))]; eexists; exists []; split; reflexivity |]. split; [reflexivity |].
  eexists. eexists. split; [right; now left | split; reflexivity].
Qed.
Print Assumptions C158_refuted.

Example C158_ex : exists f, init [("items", Fields (mkT ["Name"] ["Size"])); ("costs", Fields (mkT [] ["Unit Cost"; "unit_cost"]))] = Some f /\ (forall t, ~ In (t, Generic) (f_decl f)) /\
  find_case_space_duplicates f = Ret [("costs", ["Unit Cost"; "unit_cost"])].
Proof. eexists. split; [reflexivity |]. split; [| reflexivity]. intros t [E | [E | []]]; discriminate E. Qed.

(** ** C159 set_ampl_data *)

(** When it returns, AMPL has been handed each table of the object once, with the name of its set. *)
Theorem C159_all : forall takes f dat sets order h h', NoDup (map fst (f_decl f)) -> Permutation order (map fst (f_decl f)) -> NoDup (map fst dat) ->
  set_ampl_data takes f dat sets order h = (true, h') ->
  exists l, h' = l ++ h /\ Permutation l (map (fun ta => (snd ta, dget String.eqb sets (fst ta))) dat).
Proof.
  intros takes f dat sets order h h' Nf Hp Nd H. unfold set_ampl_data in H. destruct (forallb _ dat) eqn:Ed; [| discriminate]. destruct (forallb _ sets); [| discriminate].
  cbn [andb] in H. apply handed_all in H. eexists. split; [exact H |]. rewrite <- Permutation_rev. apply Permutation_map. apply visited; auto.
  - eapply Permutation_NoDup; [apply Permutation_sym; exact Hp | exact Nf].
  - intros t Ht. eapply Permutation_in; [apply Permutation_sym; exact Hp |]. apply in_map_iff in Ht as (ta & <- & Hin). rewrite forallb_forall in Ed. apply mem_str_iff. now apply Ed.
Qed.
Print Assumptions C159_all.

(** It returns if AMPL takes every table, and then only if the arguments are right. *)
Theorem C159_returns : forall f dat sets order h, (forall t, In t (map fst dat) -> In t (map fst (f_decl f))) -> (forall t, In t (map fst sets) -> In t (map fst dat)) ->
  fst (set_ampl_data (fun _ _ _ => true) f dat sets order h) = true.
Proof.
  intros f dat sets order h Hd Hs. unfold set_ampl_data.
  assert (forallb (fun ta : string * aframe => mem_str (fst ta) (map fst (f_decl f))) dat = true) as ->.
  { apply forallb_forall. intros ta Hin. apply mem_str_iff. apply Hd. now apply in_map. }
  assert (forallb (fun ks : string * string => dmem String.eqb dat (fst ks)) sets = true) as ->.
  { apply forallb_forall. intros ks Hin. apply (in_map fst) in Hin. apply Hs in Hin. unfold dmem. destruct (dget String.eqb dat (fst ks)) eqn:E; [reflexivity |]. exfalso.
    clear -E Hin. induction dat as [| [a b] l IH]; [contradiction |]. cbn [dget map fst] in *. destruct (String.eqb a (fst ks)) eqn:Q; [discriminate |]. destruct Hin as [Ea | Hin]; [| auto].
    rewrite Ea, String.eqb_refl in Q. discriminate. }
  cbn [andb]. assert (forall tables g, fst (hand_over (fun _ _ _ => true) sets tables g) = true) as K; [| apply K].
  induction tables as [| [t a] l IH]; intros g; [reflexivity |]. cbn [hand_over]. apply IH.
Qed.
Print Assumptions C159_returns.

Theorem C159_refuses : forall takes f dat sets order h, (exists t, In t (map fst dat) /\ ~ In t (map fst (f_decl f))) \/ (exists t, In t (map fst sets) /\ ~ In t (map fst dat)) ->
  set_ampl_data takes f dat sets order h = (false, h).
Proof.
  intros takes f dat sets order h H. unfold set_ampl_data. destruct (forallb _ dat) eqn:Ed; [| reflexivity]. destruct (forallb _ sets) eqn:Es; [| reflexivity]. exfalso.
  rewrite forallb_forall in Ed, Es. destruct H as [(t & Ht & Hn) | (t & Ht & Hn)]; apply Hn; apply in_map_iff in Ht as (x & <- & Hin).
  - apply mem_str_iff. now apply Ed.
  - specialize (Es x Hin). unfold dmem in Es. destruct (dget String.eqb dat (fst x)) as [a |] eqn:E; [| discriminate]. apply dget_In in E as (k & Q & Hk). apply String.eqb_eq in Q as <-.
    now apply (in_map fst) in Hk.
Qed.
Print Assumptions C159_refuses.

(** When AMPL refuses a table, the tables before it stay there: not all or nothing. *)
Theorem C159_stops : forall takes f dat sets order h h', set_ampl_data takes f dat sets order h = (false, h') ->
  h' = h \/ exists before t a after, flat_map (fun t => match dget String.eqb dat t with Some a => [(t, a)] | None => [] end) order = before ++ (t, a) :: after /\
    takes h' a (dget String.eqb sets t) = false /\ h' = rev (map (fun ta => (snd ta, dget String.eqb sets (fst ta))) before) ++ h.
Proof.
  intros takes f dat sets order h h' H. unfold set_ampl_data in H. destruct (_ && _); [| left; now injection H as <-]. right. now apply handed_some in H.
Qed.
Print Assumptions C159_stops.

Example C159_ex : exists f a b, init [("foods", Fields (mkT ["Food"] [])); ("costs", Fields (mkT ["Food"] ["Cost"]))] = Some f /\ a <> b /\
  set_ampl_data (fun _ _ _ => true) f [("foods", a); ("costs", b)] [("foods", "FOODS")] ["costs"; "foods"] [] = (true, [(a, Some "FOODS"); (b, None)]) /\
  set_ampl_data (fun _ _ s => match s with None => true | Some _ => false end) f [("foods", a); ("costs", b)] [("foods", "FOODS")] ["costs"; "foods"] [] = (false, [(b, None)]).
Proof.
  eexists. exists (mkA ["Food"] [("Food", [VStr "egg"])]), (mkA ["Food"] [("Food", [VStr "egg"]); ("Cost", [int 3])]). split; [reflexivity |]. split; [discriminate |]. split; vm_compute; reflexivity.
Qed.

(** ** C160 create_full_parameters_dict of a PanDatFactory *)

(** [rows]: name and value of each row of the table; the last row for a name counts, then the default. *)
Theorem C160_exact : forall parses date_of f fr name data rows r, reachable parses f -> dget String.eqb (f_decl f) "parameters" = Some (Fields (mkT [name] [data])) ->
  Forall2 (fun row kv => cell_of (fr_cols fr) (snd row) name = Some (fst kv) /\ cell_of (fr_cols fr) (snd row) data = Some (snd kv)) (fr_rows fr) rows ->
  pan_create_full date_of f fr = Some r -> forall k v, dget pyeq r k = Some v <->
    (exists before k' after, rows = before ++ (k', v) :: after /\ pyeq k' k = true /\ forall k2 w, In (k2, w) after -> pyeq k2 k = false) \/
    ((forall k2 w, In (k2, w) rows -> pyeq k2 k = false) /\
     exists td dv, dget pyeq (f_params f) k = Some (td, dv) /\
      ((exists dt d, td = Some dt /\ datetime dt = true /\ adjust date_of dv = Some d /\ v = VDate d) \/
       (~ (exists dt d, td = Some dt /\ datetime dt = true /\ adjust date_of dv = Some d) /\ v = dv))).
Proof.
  intros parses date_of f fr name data rows r _ Hd Hr H k v. unfold pan_create_full in H. rewrite Hd in H. rewrite (pan_rows _ _ _ _ Hr) in H.
  rewrite (full_get date_of _ _ _ H k v). rewrite dict_again. rewrite last_some, last_none. reflexivity.
Qed.
Print Assumptions C160_exact.

Theorem C160_total : forall date_of f fr name data rows, dget String.eqb (f_decl f) "parameters" = Some (Fields (mkT [name] [data])) ->
  Forall2 (fun row kv => cell_of (fr_cols fr) (snd row) name = Some (fst kv) /\ cell_of (fr_cols fr) (snd row) data = Some (snd kv)) (fr_rows fr) rows ->
  ((exists r, pan_create_full date_of f fr = Some r) <-> f_params f <> [] /\ forall k v, In (k, v) rows -> exists s, k = VStr s).
Proof.
  intros date_of f fr name data rows Hd Hr. unfold pan_create_full. rewrite Hd, (pan_rows _ _ _ _ Hr). unfold create_full. rewrite dict_strings. unfold has_params.
  destruct (f_params f) as [| p l]; cbn [List.length Nat.eqb negb andb]; [split; [intros [r X]; discriminate X | intros [X _]; contradiction] |].
  destruct (forallb _ rows) eqn:E; rewrite ?forallb_forall in E.
  - split; [intros _ | eauto]. split; [discriminate |]. intros k v Hin. specialize (E _ Hin). cbn [fst] in E. destruct k; try discriminate E. eauto.
  - split; [intros [r X]; discriminate X |]. intros [_ H]. exfalso. apply not_true_iff_false in E. apply E. apply forallb_forall. intros [k v] Hin. destruct (H k v Hin) as [s ->]. reflexivity.
Qed.
Print Assumptions C160_total.

(** The TicDat object with the same rows gives the same dictionary. *)
Theorem C160_agrees : forall date_of f fr name data rows, dget String.eqb (f_decl f) "parameters" = Some (Fields (mkT [name] [data])) ->
  Forall2 (fun row kv => cell_of (fr_cols fr) (snd row) name = Some (fst kv) /\ cell_of (fr_cols fr) (snd row) data = Some (snd kv)) (fr_rows fr) rows ->
  keys_distinct pyeq (map fst rows) -> pan_create_full date_of f fr = create_full date_of f rows.
Proof.
  intros date_of f fr name data rows Hd Hr N. unfold pan_create_full. rewrite Hd, (pan_rows _ _ _ _ Hr). f_equal. now apply dict_distinct.
Qed.
Print Assumptions C160_agrees.

(** As for TicDat objects (C56), a declared parameter whose name is no string cannot be used. *)
Theorem C160_non_string_name_refuted : exists date_of f fr k w, reachable (is_date date_of) f /\ dget pyeq (f_params f) k <> None /\
  dget String.eqb (f_decl f) "parameters" = Some (Fields (mkT ["Key"] ["Value"])) /\ fr_rows fr = [([], [k; w])] /\ map CName ["Key"; "Value"] = fr_cols fr /\ pan_create_full date_of f fr = None.
Proof.
  exists wi_date, wi_pf, (mkFr [] [CName "Key"; CName "Value"] [([], [VNum (of_int 4); VNum (of_int 2)])]), (VNum (of_int 4)), (VNum (of_int 2)).
  split; [exists wi_decl, wi_f0, wi_pops; split; reflexivity |]. split; [vm_compute; discriminate |]. split; [reflexivity |]. split; [reflexivity |]. split; [reflexivity |]. vm_compute. reflexivity.
Qed.
Print Assumptions C160_non_string_name_refuted.

Example C160_ex : pan_create_full wi_date wi_pf (mkFr [] [CName "Note"; CName "Value"; CName "Key"]
    [([], [VNone; VNum (of_int 8); VStr "n"]); ([], [VNone; VNone; VStr "other"]); ([], [VNone; VNum (of_int 9); VStr "n"])]) =
  Some [(VStr "n", VNum (of_int 9)); (VStr "day", VDate 5); (VStr "any", VStr "x"); (VNum (of_int 4), VNum (of_int 1)); (VStr "other", VNone)].
Proof. vm_compute. reflexivity. Qed.
