(** * Facts about generator tables: the constructor and the readers. *)
From Coq Require Import ZArith Bool List String Arith Lia Permutation.
From Verif Require Import PyVal PyValFacts PyDict PyDictFacts ListFacts TypeDict Data FindTypes FindTypesFacts FK FKFacts Obj ObjFacts ObjMore
  Factory FactoryFacts InfIO Params Names NamesFacts Utils Json ObjRows JsonFacts TripFacts Csv CsvFacts CsvRows CsvMore Xls Sql FileDb Lazy.
Import ListNotations.
Local Open Scope string_scope.
Local Open Scope list_scope.

Lemma str_get {V} : forall (l : list (string * V)) t v, NoDup (map fst l) -> (dget String.eqb l t = Some v <-> In (t, v) l).
Proof.
  induction l as [| [u x] l IH]; intros t v Hn; [simpl; split; [discriminate | tauto] |].
  cbn [map fst] in Hn. inversion Hn as [| ? ? Hnot Hn']; subst. cbn [dget fst In]. destruct (String.eqb u t) eqn:E.
  - apply String.eqb_eq in E as ->. split; [intros H; injection H as <-; auto |]. intros [H | H]; [now injection H as -> |].
    exfalso. apply Hnot. change t with (fst (t, v)). now apply in_map.
  - rewrite IH by auto. split; [auto |]. intros [H | H]; auto. injection H as -> ->. rewrite String.eqb_refl in E. discriminate.
Qed.

(** ** The constructor, whatever the tables are *)

Section Made.
  Variables (X Y : Type) (sch : schema) (mk : string -> tschema -> X -> option Y) (none : string -> option tschema -> Y)
    (len : X -> option nat) (size : Y -> nat) (mode : bool).

  Definition gcon (inputs : list (string * X)) : option (string -> Y) :=
    match map_opt (fun ti => match dget String.eqb sch (fst ti) with
                             | Some ts => option_map (pair (fst ti)) (mk (fst ti) ts (snd ti))
                             | None => None
                             end) inputs with
    | None => None
    | Some built =>
        let d := fun t => match dget String.eqb built t with Some y => y | None => none t (dget String.eqb sch t) end in
        if mode && existsb (fun ti => match len (snd ti) with Some n => Nat.ltb (size (d (fst ti))) n | None => false end) inputs
        then None else Some d
    end.

  Definition one (t : string) (ts : tschema) (i : option X) : option Y :=
    match i with
    | None => Some (none t (Some ts))
    | Some x => match mk t ts x with
                | None => None
                | Some y => if mode && match len x with Some n => Nat.ltb (size y) n | None => false end then None else Some y
                end
    end.

  Lemma map_opt_none {A B} (h : A -> option B) : forall l, map_opt h l = None -> exists x, In x l /\ h x = None.
  Proof.
    induction l as [| x l IH]; simpl; [discriminate |]. destruct (h x) eqn:E; [| eauto].
    destruct (map_opt h l); [discriminate |]. intros _. destruct (IH eq_refl) as (y & A1 & A2). eauto.
  Qed.

  Lemma built_at : forall inputs built, NoDup (map fst inputs) ->
    map_opt (fun ti => match dget String.eqb sch (fst ti) with
                       | Some ts => option_map (pair (fst ti)) (mk (fst ti) ts (snd ti))
                       | None => None
                       end) inputs = Some built ->
    forall t ts, dget String.eqb sch t = Some ts ->
      match dget String.eqb inputs t with
      | None => dget String.eqb built t = None
      | Some x => exists y, mk t ts x = Some y /\ dget String.eqb built t = Some y
      end.
  Proof.
    induction inputs as [| [u x] inputs IH]; intros built Hn E t ts Ht.
    - simpl in E. injection E as <-. reflexivity.
    - cbn [map_opt fst snd] in E. destruct (dget String.eqb sch u) as [us |] eqn:Eu; [| discriminate].
      destruct (mk u us x) as [y |] eqn:Ey; [| discriminate].
      cbn [option_map] in E. destruct (map_opt _ inputs) as [built' |] eqn:Eb; [| discriminate]. injection E as <-.
      cbn [map fst] in Hn. inversion Hn as [| ? ? Hnot Hn']; subst. specialize (IH _ Hn' eq_refl _ _ Ht).
      cbn [dget fst]. destruct (String.eqb u t) eqn:Eut.
      + apply String.eqb_eq in Eut as ->. rewrite Eu in Ht. injection Ht as <-. eauto.
      + exact IH.
  Qed.

  Lemma gcon_spec : forall inputs, NoDup (map fst sch) -> NoDup (map fst inputs) -> (forall t, In t (map fst inputs) -> In t (map fst sch)) ->
    match gcon inputs with
    | Some d => forall t ts, In (t, ts) sch -> one t ts (dget String.eqb inputs t) = Some (d t)
    | None => exists t ts, In (t, ts) sch /\ one t ts (dget String.eqb inputs t) = None
    end.
  Proof.
    intros inputs Hs Hn Hin. unfold gcon. destruct (map_opt _ inputs) as [built |] eqn:E.
    - pose proof (built_at _ _ Hn E) as HB. cbv zeta.
      destruct (mode && existsb _ inputs) eqn:Em.
      + apply andb_true_iff in Em as [Em Ex]. apply existsb_exists in Ex as ([t x] & Hi & Hx). cbn [fst snd] in Hx.
        pose proof (Hin t (in_map fst _ _ Hi)) as Ht. apply in_map_iff in Ht as ([t' ts] & Et & Ht). cbn [fst] in Et. subst t'.
        exists t, ts. split; auto. pose proof (proj2 (schema_get sch t ts Hs) Ht) as Hg.
        specialize (HB _ _ Hg). assert (dget String.eqb inputs t = Some x) as Ei by (now apply str_get).
        rewrite Ei in *. destruct HB as (y & A & B). unfold one. rewrite A. rewrite B in Hx. rewrite Em. cbn [andb].
        destruct (len x); [| discriminate]. now rewrite Hx.
      + intros t ts Ht. pose proof (proj2 (schema_get sch t ts Hs) Ht) as Hg. specialize (HB _ _ Hg).
        destruct (dget String.eqb inputs t) as [x |] eqn:Ei.
        * destruct HB as (y & A & B). unfold one. rewrite A, B. destruct mode; [| reflexivity]. cbn [andb] in *.
          destruct (len x) as [n |] eqn:El; [| reflexivity].
          destruct (Nat.ltb (size y) n) eqn:Eq; [| reflexivity]. exfalso.
          assert (existsb (fun ti => match len (snd ti) with
             | Some n0 => Nat.ltb (size match dget String.eqb built (fst ti) with Some y0 => y0 | None => none (fst ti) (dget String.eqb sch (fst ti)) end) n0
             | None => false end) inputs = true); [| congruence].
          apply existsb_exists. exists (t, x). split; [now apply str_get |]. cbn [fst snd]. rewrite El, B. exact Eq.
        * rewrite HB, Hg. reflexivity.
    - apply map_opt_none in E as ([t x] & Hi & E). cbn [fst snd] in E.
      pose proof (Hin t (in_map fst _ _ Hi)) as Ht. apply in_map_iff in Ht as ([t' ts] & Et & Ht). cbn [fst] in Et. subst t'.
      exists t, ts. split; auto. rewrite (proj2 (schema_get sch t ts Hs) Ht) in E.
      assert (dget String.eqb inputs t = Some x) as -> by (now apply str_get). unfold one.
      destruct (mk t ts x); [discriminate | reflexivity].
  Qed.
End Made.

(** ** One table of an object with generator tables and without *)

(** The table of the factory without generator tables; [t] shows the same rows. *)
Definition shows (f : factory) (w : world) (t : string) (ts : tschema) (g : gtable) (tb : otable) : Prop :=
  if mem_str t (f_gens f) then (exists s, g = Lazy s) /\ seen (f_defaults f) t ts g w = Ret tb else g = Stored tb.

Definition gen_one (sch : schema) (dv : defaults) (mode : string) (gens : list string) (w : world) (t : string) (ts : tschema) (gi : option ginput) : option gtable :=
  one ginput gtable
    (fun t ts gi => if mem_str t gens then init_lazy ts w gi
                    else match plain_input w gi with Some i => option_map Stored (init_one dv t ts i) | None => None end)
    (fun t o => if mem_str t gens then Lazy (fun _ => Ret []) else Stored (match o with Some ts => no_rows ts | None => OListed [] end))
    (given_length w) made_length (String.eqb mode "assert") t ts gi.
Definition tab_one (sch : schema) (dv : defaults) (mode : string) (t : string) (ts : tschema) (i : option tablein) : option otable :=
  one tablein otable (fun t ts i => init_one dv t ts i) (fun _ o => match o with Some ts => no_rows ts | None => OListed [] end)
    (fun i => Some (in_length i)) out_length (String.eqb mode "assert") t ts i.

Lemma construct_each : forall sch dv mode inputs, NoDup (map fst sch) -> NoDup (map fst inputs) -> (forall t, In t (map fst inputs) -> In t (map fst sch)) ->
  match construct sch dv mode inputs with
  | Some d => forall t ts, In (t, ts) sch -> tab_one sch dv mode t ts (dget String.eqb inputs t) = Some (d t)
  | None => exists t ts, In (t, ts) sch /\ tab_one sch dv mode t ts (dget String.eqb inputs t) = None
  end.
Proof.
  intros sch dv mode inputs A B C.
  exact (gcon_spec tablein otable sch (fun t ts i => init_one dv t ts i) (fun _ o => match o with Some ts => no_rows ts | None => OListed [] end)
           (fun i => Some (in_length i)) out_length (String.eqb mode "assert") inputs A B C).
Qed.

Lemma gen_construct_each : forall sch dv mode gens w inputs, NoDup (map fst sch) -> NoDup (map fst inputs) -> (forall t, In t (map fst inputs) -> In t (map fst sch)) ->
  match gen_construct sch dv mode gens w inputs with
  | Some g => forall t ts, In (t, ts) sch -> gen_one sch dv mode gens w t ts (dget String.eqb inputs t) = Some (g t)
  | None => exists t ts, In (t, ts) sch /\ gen_one sch dv mode gens w t ts (dget String.eqb inputs t) = None
  end.
Proof.
  intros sch dv mode gens w inputs A B C.
  exact (gcon_spec ginput gtable sch
    (fun t ts gi => if mem_str t gens then init_lazy ts w gi
                    else match plain_input w gi with Some i => option_map Stored (init_one dv t ts i) | None => None end)
    (fun t o => if mem_str t gens then Lazy (fun _ => Ret []) else Stored (match o with Some ts => no_rows ts | None => OListed [] end))
    (given_length w) made_length (String.eqb mode "assert") inputs A B C).
Qed.

(** A table that is not a generator table is made as without generator tables. *)
Lemma stored_one : forall sch dv mode gens w t ts i, mem_str t gens = false ->
  gen_one sch dv mode gens w t ts (option_map GVal i) = option_map Stored (tab_one sch dv mode t ts i).
Proof.
  intros sch dv mode gens w t ts [i |] H; unfold gen_one, tab_one, one, option_map; rewrite H; [| reflexivity].
  cbn [plain_input given_length]. destruct (init_one dv t ts i) as [tb |]; [| reflexivity]. cbn [made_length given_length plain_input].
  destruct (String.eqb mode "assert" && Nat.ltb (out_length tb) (in_length i)); reflexivity.
Qed.

Lemma rows_both : forall dv t ts rs, match map_opt (row_factory dv t ts) rs with
  | Some l => mapO (fun x => match row_factory dv t ts x with Some r => Ret r | None => Raise end) rs = Ret l
  | None => mapO (fun x => match row_factory dv t ts x with Some r => Ret r | None => Raise end) rs = Raise
  end.
Proof.
  intros dv t ts rs. induction rs as [| x rs IH]; simpl; [reflexivity |].
  destruct (row_factory dv t ts x); [| reflexivity]. destruct (map_opt (row_factory dv t ts) rs); rewrite IH; reflexivity.
Qed.

Lemma map_opt_length {A B} (h : A -> option B) : forall l r, map_opt h l = Some r -> List.length r = List.length l.
Proof.
  induction l as [| x l IH]; simpl; intros r E; [now injection E as <- |]. destruct (h x); [| discriminate].
  destruct (map_opt h l) eqn:El; [| discriminate]. injection E as <-. simpl. now rewrite (IH _ eq_refl).
Qed.

(** Good rows are made into rows (a table has fields). *)
Lemma good_rows_made : forall dv t ts rs, tdf ts <> [] -> good_rows (tdf ts) rs = true -> exists l, map_opt (row_factory dv t ts) rs = Some l.
Proof.
  intros dv t ts rs Hne H. induction rs as [| x rs IH]; simpl; [eauto |].
  unfold good_rows in H. cbn [forallb] in H. apply andb_true_iff in H as [Hx H]. destruct (IH H) as [l ->].
  assert (exists r, row_factory dv t ts x = Some r) as [r ->]; [| eauto].
  unfold row_factory. destruct (tdf ts) as [| y ys] eqn:E; [congruence |].
  destruct x as [l' | l' | v]; rewrite Hx; eauto.
Qed.

(** A table without key, from rows. *)
Lemma rows_one : forall sch dv mode t ts rs, tpk ts = [] -> tdf ts <> [] ->
  tab_one sch dv mode t ts (Some (TRows rs)) =
    if good_rows (tdf ts) rs then option_map OListed (map_opt (row_factory dv t ts) rs) else None.
Proof.
  intros sch dv mode t ts rs Hk Hne. unfold tab_one, one, init_one. rewrite Hk. destruct (good_rows (tdf ts) rs); [| reflexivity].
  destruct (map_opt (row_factory dv t ts) rs) as [l |] eqn:E; [| reflexivity]. cbn [option_map out_length in_length].
  apply map_opt_length in E. rewrite E, Nat.ltb_irrefl. now rewrite andb_false_r.
Qed.

(** A generator table given as a function. *)
Lemma lazy_one : forall sch dv mode gens w t ts s, mem_str t gens = true -> tpk ts = [] -> tdf ts <> [] ->
  match s w with
  | Raise => gen_one sch dv mode gens w t ts (Some (GFun s)) = None
  | Ret rs =>
      match tab_one sch dv mode t ts (Some (TRows rs)) with
      | Some tb => gen_one sch dv mode gens w t ts (Some (GFun s)) = Some (Lazy s) /\ seen dv t ts (Lazy s) w = Ret tb
      | None => gen_one sch dv mode gens w t ts (Some (GFun s)) = None
      end
  end.
Proof.
  intros sch dv mode gens w t ts s Hg Hk Hne. unfold gen_one, one. rewrite Hg. cbn [init_lazy given_length plain_input].
  destruct (s w) as [rs |] eqn:Es; [| reflexivity]. rewrite rows_one by auto. destruct (good_rows (tdf ts) rs) eqn:Er; [| reflexivity].
  destruct (good_rows_made dv t ts rs Hne Er) as [l El]. rewrite El. cbn [option_map]. split.
  - now rewrite andb_false_r.
  - cbn [seen]. unfold yields. rewrite Es. cbn [bindO]. pose proof (rows_both dv t ts rs) as R. rewrite El in R. rewrite R. reflexivity.
Qed.

(** ** Readers in general *)

(** Each table contributes one argument or none. *)
Lemma entries {X} (h : string * tschema -> outcome (list (string * X))) : forall sch l, NoDup (map fst sch) -> mapO h sch = Ret l ->
  (forall tts x, In tts sch -> h tts = Ret x -> x = [] \/ exists i, x = [(fst tts, i)]) ->
  NoDup (map fst (List.concat l)) /\ (forall k, In k (map fst (List.concat l)) -> In k (map fst sch)) /\
  forall t ts, In (t, ts) sch -> exists x, h (t, ts) = Ret x /\ dget String.eqb (List.concat l) t = match x with [] => None | p :: _ => Some (snd p) end.
Proof.
  induction sch as [| [u us] sch IH]; intros l Hn E Hone.
  - simpl in E. injection E as <-. simpl. split; [constructor |]. split; [tauto | tauto].
  - cbn [mapO] in E. destruct (h (u, us)) as [x |] eqn:Ex; [| discriminate]. destruct (mapO h sch) as [l' |] eqn:El; [| discriminate].
    injection E as <-. cbn [map fst] in Hn. inversion Hn as [| ? ? Hnot Hn']; subst.
    destruct (IH l' Hn' eq_refl) as (A & B & C); [intros tts y Hin; apply Hone; now right |].
    destruct (Hone (u, us) x (or_introl eq_refl) Ex) as [-> | [i ->]]; cbn [List.concat app].
    + split; [exact A |]. split; [intros k Hk; right; now apply B |]. intros t ts [Eq | Hin]; [| now apply C].
      injection Eq as <- <-. exists []. split; [exact Ex |]. destruct (dget String.eqb (List.concat l') u) as [v |] eqn:Ed; [| reflexivity].
      exfalso. apply Hnot. apply B. apply dget_In in Ed as (k & Ek & Hk). apply String.eqb_eq in Ek as ->. change u with (fst (u, v)). now apply in_map.
    + cbn [map fst]. split; [constructor; [intros Hu; apply Hnot; now apply B | exact A] |].
      split; [intros k [<- | Hk]; [now left | right; now apply B] |]. intros t ts Hin. cbn [dget fst]. destruct (String.eqb u t) eqn:Eut.
      * apply String.eqb_eq in Eut as <-. destruct Hin as [Eq | Hin].
        -- injection Eq as <-. exists [(u, i)]. split; [exact Ex | reflexivity].
        -- exfalso. apply Hnot. change u with (fst (u, ts)). now apply in_map.
      * destruct Hin as [Eq | Hin]; [injection Eq as -> ->; rewrite String.eqb_refl in Eut; discriminate | now apply C].
Qed.


Lemma mapO_raises {A B} (h : A -> outcome B) : forall l, mapO h l = Raise -> exists x, In x l /\ h x = Raise.
Proof.
  induction l as [| x l IH]; simpl; intros E; [discriminate |]. destruct (h x) eqn:Ex; [| eauto]. destruct (mapO h l) eqn:El; [discriminate |].
  destruct (IH eq_refl) as (y & Hy & E'). eauto.
Qed.
Lemma mapO_member {A B} (h : A -> outcome B) : forall l r x, mapO h l = Ret r -> In x l -> exists y, h x = Ret y.
Proof.
  intros l r x E Hin. destruct (h x) eqn:Ex; [eauto |]. rewrite (mapO_raise h l x Hin Ex) in E. discriminate.
Qed.

Section Reader.
  Variable date_of : value -> option Z.
  Variable float_of : value -> option value.
  Variable f : factory.
  Variable w : world.
  Variable parses : value -> bool.
  Hypothesis Hinv : inv parses f.

  Lemma gens_plain : forall t ts, In (t, ts) (plain_schema f) -> mem_str t (f_gens f) = true -> tpk ts = [] /\ tdf ts <> [].
  Proof.
    intros t ts Hin Hg. pose proof (inv_decl _ _ Hinv) as Hd. pose proof (plain_fields f t ts Hd Hin) as [P _].
    apply mem_str_iff in Hg. destruct (inv_gens _ _ Hinv _ Hg) as (ts' & A & B).
    assert (ts' = ts) as ->.
    { apply in_plain in Hin. apply decl_of_In in Hin; [| apply legal_NoDup; now apply decl_ok_legal]. congruence. }
    split; auto. intros E. apply P. unfold tfields. now rewrite B, E.
  Qed.

  (** What an ordinary reader hands over for a table ([h]) and what a reader that knows generator tables
      hands over ([gh]). *)
  Definition alike (t : string) (ts : tschema) (h : outcome (list (string * tablein))) (gh : outcome (list (string * ginput))) : Prop :=
    (h = Raise \/ h = Ret [] \/ exists i, h = Ret [(t, i)]) /\
    if mem_str t (f_gens f) then
      (h = Raise /\ gh = Raise) \/ (h = Ret [] /\ gh = Ret []) \/
      exists s, gh = Ret [(t, GFun s)] /\
        match s w with
        | Raise => h = Raise
        | Ret rs => h = Ret [(t, TRows rs)] \/ (rs = [] /\ h = Ret [])
        end
    else gh = bindO h (fun l => Ret (at_once l)).

  Definition entry {X} (x : list (string * X)) : option X := match x with [] => None | p :: _ => Some (snd p) end.

  Lemma alike_one : forall t ts h gh l gl, In (t, ts) (plain_schema f) -> alike t ts h gh -> h = Ret l -> gh = Ret gl ->
    match tab_one (plain_schema f) (f_defaults f) (dup_mode f) t ts (entry l), gen_one (plain_schema f) (f_defaults f) (dup_mode f) (f_gens f) w t ts (entry gl) with
    | Some tb, Some g => shows f w t ts g tb
    | None, None => True
    | _, _ => False
    end.
  Proof.
    intros t ts h gh l gl Hin [Hsh H] -> ->. unfold shows. destruct (mem_str t (f_gens f)) eqn:Eg.
    - destruct (gens_plain t ts Hin Eg) as [Hk Hne].
      assert (tab_one (plain_schema f) (f_defaults f) (dup_mode f) t ts None = Some (OListed [])) as Enone.
      { unfold tab_one, one, no_rows. now rewrite Hk. }
      destruct H as [[E _] | [[E1 E2] | (s & E & H)]]; [discriminate | |].
      + injection E1 as ->. injection E2 as ->. cbn [entry]. rewrite Enone. unfold gen_one, one. rewrite Eg. split; [eauto | reflexivity].
      + injection E as ->. cbn [entry snd]. pose proof (lazy_one (plain_schema f) (f_defaults f) (dup_mode f) (f_gens f) w t ts s Eg Hk Hne) as L.
        destruct (s w) as [rs |]; [| discriminate]. destruct H as [H | [-> H]]; injection H as ->; cbn [entry snd].
        * destruct (tab_one _ _ _ t ts (Some (TRows rs))) as [tb |]; [| now rewrite L]. destruct L as [-> L]. split; [eauto | exact L].
        * rewrite Enone. rewrite rows_one in L by auto. change (good_rows (tdf ts) []) with true in L. cbn [map_opt option_map] in L. destruct L as [-> L]. split; [eauto | exact L].
    - injection H as ->. assert (entry (at_once l) = option_map GVal (entry l)) as -> by (destruct l as [| [u i] l]; reflexivity).
      rewrite stored_one by auto. destruct (tab_one _ _ _ t ts (entry l)); simpl; auto.
  Qed.

  (** Both ways of reading go well or neither, and show the same rows. *)
  Theorem read_alike : forall h gh, (forall t ts, In (t, ts) (plain_schema f) -> alike t ts (h (t, ts)) (gh (t, ts))) ->
    match bindO (mapO h (plain_schema f)) (fun l => match construct (plain_schema f) (f_defaults f) (dup_mode f) (List.concat l) with
                                                    | None => Raise | Some d => Ret (adjust_params date_of float_of f d) end),
          bindO (mapO gh (plain_schema f)) (gen_finish date_of float_of f w) with
    | Ret d, Ret g => forall t ts, In (t, ts) (plain_schema f) -> shows f w t ts (g t) (d t) /\
        (mem_str t (f_gens f) = true -> match gh (t, ts) with
                                        | Ret [(_, GFun s)] => g t = Lazy s
                                        | _ => forall w', seen (f_defaults f) t ts (g t) w' = Ret (OListed [])
                                        end)
    | Raise, Raise => True
    | _, _ => False
    end.
  Proof.
    intros h gh Ha. pose proof (plain_wf f (inv_decl _ _ Hinv)) as [Hn _]. set (sch := plain_schema f) in *.
    assert (forall tts x, In tts sch -> h tts = Ret x -> x = [] \/ exists i, x = [(fst tts, i)]) as Hh.
    { intros [t ts] x Hin E. destruct (Ha t ts Hin) as [[A | [A | [i A]]] _]; rewrite A in E; [discriminate | injection E as <-; auto | injection E as <-; eauto]. }
    assert (forall tts x, In tts sch -> gh tts = Ret x -> x = [] \/ exists i, x = [(fst tts, i)]) as Hgh.
    { intros [t ts] x Hin E. destruct (Ha t ts Hin) as [_ A]. destruct (mem_str t (f_gens f)).
      - destruct A as [[_ A] | [[_ A] | (s & A & _)]]; rewrite A in E; [discriminate | injection E as <-; auto | injection E as <-; eauto].
      - rewrite A in E. destruct (h (t, ts)) as [l |] eqn:El; [| discriminate]. cbn [bindO] in E. injection E as <-.
        destruct (Hh (t, ts) l Hin El) as [-> | [i ->]]; [now left | right; cbn; eauto]. }
    destruct (mapO gh sch) as [gl |] eqn:Egl.
    - destruct (entries gh sch gl Hn Egl Hgh) as (GA & GB & GC). pose proof (gen_construct_each sch (f_defaults f) (dup_mode f) (f_gens f) w (List.concat gl) Hn GA GB) as GE.
      cbn [bindO]. unfold gen_finish. fold sch. destruct (mapO h sch) as [l |] eqn:El.
      + destruct (entries h sch l Hn El Hh) as (A & B & C). pose proof (construct_each sch (f_defaults f) (dup_mode f) (List.concat l) Hn A B) as CE. cbn [bindO].
        assert (forall t ts, In (t, ts) sch ->
          match tab_one sch (f_defaults f) (dup_mode f) t ts (dget String.eqb (List.concat l) t), gen_one sch (f_defaults f) (dup_mode f) (f_gens f) w t ts (dget String.eqb (List.concat gl) t) with
          | Some tb, Some g => shows f w t ts g tb
          | None, None => True
          | _, _ => False
          end) as Each.
        { intros t ts Hin. destruct (C t ts Hin) as (x & Ex & ->). destruct (GC t ts Hin) as (gx & Egx & ->).
          exact (alike_one t ts _ _ x gx Hin (Ha t ts Hin) Ex Egx). }
        destruct (construct sch (f_defaults f) (dup_mode f) (List.concat l)) as [d |];
          destruct (gen_construct sch (f_defaults f) (dup_mode f) (f_gens f) w (List.concat gl)) as [g |].
        * intros t ts Hin. specialize (CE t ts Hin). pose proof (GE t ts Hin) as GE'. pose proof (Each t ts Hin) as E. rewrite CE, GE' in E.
          assert (shows f w t ts (gen_adjust date_of float_of f g t) (adjust_params date_of float_of f d t)) as Hs.
          { unfold shows in *. unfold gen_adjust. destruct (mem_str t (f_gens f)).
            - destruct E as [[s Es] E]. rewrite Es in *. split; [eauto |]. rewrite E. cbn [seen] in E. destruct (yields (f_defaults f) t ts s w); [| discriminate].
              cbn [bindO] in E. injection E as E. unfold adjust_params. rewrite <- E. destruct (String.eqb t "parameters" && has_params f); reflexivity.
            - rewrite E. unfold adjust_params. now rewrite E. }
          split; [exact Hs |]. intros Eg. destruct (GC t ts Hin) as (gx & Egx & Ed). rewrite Egx. rewrite Ed in GE'. unfold gen_one, one in GE'.
          rewrite Eg in GE'. unfold gen_adjust. destruct (Ha t ts Hin) as [_ A']. rewrite Eg in A'. rewrite Egx in A'.
          destruct A' as [[_ A'] | [[_ A'] | (s & A' & _)]]; [discriminate | |]; injection A' as ->; cbn [entry] in GE'.
          -- injection GE' as <-. intros w'. reflexivity.
          -- cbn [snd init_lazy given_length plain_input] in GE'. destruct (s w) as [a |]; [| discriminate].
             destruct (good_rows (tdf ts) a); [| discriminate]. rewrite andb_false_r in GE'. injection GE' as <-. reflexivity.
        * destruct GE as (t & ts & Hin & GE). pose proof (Each t ts Hin) as E. rewrite (CE t ts Hin), GE in E. exact E.
        * destruct CE as (t & ts & Hin & CE). pose proof (Each t ts Hin) as E. rewrite (GE t ts Hin), CE in E. exact E.
        * exact I.
      + cbn [bindO]. destruct (gen_construct sch (f_defaults f) (dup_mode f) (f_gens f) w (List.concat gl)) as [g |]; [| exact I].
        apply mapO_raises in El as ([t ts] & Hin & El). specialize (GE t ts Hin). destruct (GC t ts Hin) as (gx & Egx & Ed). rewrite Ed in GE.
        destruct (Ha t ts Hin) as [_ A]. rewrite El in A. destruct (mem_str t (f_gens f)) eqn:Eg.
        * destruct A as [[_ A] | [[A _] | (s & A & A')]]; [congruence | discriminate |]. rewrite A in Egx. injection Egx as <-.
          destruct (gens_plain t ts Hin Eg) as [Hk Hne]. pose proof (lazy_one sch (f_defaults f) (dup_mode f) (f_gens f) w t ts s Eg Hk Hne) as L.
          destruct (s w) as [rs |]; [destruct A' as [A' | [_ A']]; discriminate |]. cbn [snd] in GE. congruence.
        * rewrite Egx in A. discriminate.
    - cbn [bindO]. assert (mapO h sch = Raise) as ->; [| exact I]. apply mapO_raises in Egl as ([t ts] & Hin & Egl). apply (mapO_raise h sch (t, ts) Hin).
      destruct (Ha t ts Hin) as [_ A]. rewrite Egl in A. destruct (mem_str t (f_gens f)).
      + destruct A as [[A _] | [[_ A] | (s & A & _)]]; [auto | discriminate | discriminate].
      + destruct (h (t, ts)); [discriminate | reflexivity].
  Qed.
End Reader.
