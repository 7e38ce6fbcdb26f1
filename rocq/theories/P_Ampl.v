(** * Property C58: [ampl_format] substitutes double braces only. *)
From Coq Require Import Bool List String Ascii Arith Lia.
From Verif Require Import InfIO Ampl AmplFacts.
Import ListNotations.

(** For every template in which no two like single braces touch and which does
    not spell the body of an internal marker, and whatever the placeholders'
    values are (any text, braces and markers included), the result is the
    template with each placeholder replaced by its value and all else as
    written; it raises exactly when a placeholder has no value. *)
Theorem C58_substitutes : forall (subst : text -> option text) its,
  Forall item_ok its -> lone its ->
  contains (txt "ticdat_ampl_format_[") (render its) = false ->
  contains (txt "ticdat_ampl_format_]") (render its) = false ->
  ampl_format subst (render its) = expected subst its.
Proof. exact ampl_correct. Qed.
Print Assumptions C58_substitutes.

(** The check for the internal markers is too weak: a template that ends a
    truncated marker right before a placeholder passes it and is garbled, though
    every name has a value. *)
Theorem C58_refuted : exists (subst : text -> option text) its r,
  Forall item_ok its /\ lone its /\
  contains left_mark (render its) = false /\ contains right_mark (render its) = false /\
  (forall n, subst n <> None) /\
  ampl_format subst (render its) = Ret r /\ Ret r <> expected subst its.
Proof.
  exists (fun _ => Some (txt "v")).
  exists (map Ch (txt "_ticdat_ampl_format_[") ++ [Ph (txt "x")]).
  exists (txt "v").
  refine (conj _ (conj _ (conj _ (conj _ (conj _ (conj _ _)))))); try (vm_compute; reflexivity).
  - apply Forall_forall. intros i Hi. apply in_app_or in Hi as [Hi | [<- | []]].
    + apply in_map_iff in Hi as (c & <- & Hc). simpl in Hc. cbn [item_ok].
      repeat (destruct Hc as [<- | Hc]; [split; discriminate |]). destruct Hc.
    + intros c [<- | []]. split; discriminate.
  - intros pre post. split; intros E; apply (f_equal (fun l => existsb (fun i => match i with LB | RB => true | _ => false end) l)) in E;
      rewrite (existsb_app _ pre) in E; simpl in E; rewrite orb_true_r in E; discriminate.
  - discriminate.
  - vm_compute. discriminate.
Qed.
Print Assumptions C58_refuted.

(** "set A; {{{x}} in A} {y}}": single braces beside placeholders. *)
Example C58_ex :
  let its := [Ch "s"%char; LB; Ph (txt "x"); RB; Ch "-"%char; Ph (txt "y"); RB; LB; RB] in
  let subst := fun n => if list_eq_dec ascii_dec n (txt "x") then Some (txt "{{1}}")
                        else if list_eq_dec ascii_dec n (txt "y") then Some (txt "") else None in
  render its = txt "s{{{x}}}-{{y}}}{}" /\
  Forall item_ok its /\ lone its /\
  contains (txt "ticdat_ampl_format_[") (render its) = false /\
  contains (txt "ticdat_ampl_format_]") (render its) = false /\
  ampl_format subst (render its) = Ret (txt "s{{{1}}}-}{}") /\
  ampl_format subst (txt "{{z}}") = Raise.
Proof.
  cbv zeta. refine (conj _ (conj _ (conj _ (conj _ (conj _ (conj _ _)))))); try (vm_compute; reflexivity).
  - repeat (apply Forall_cons; [cbn; try exact I; try (split; discriminate);
      intros c [<- | []]; split; discriminate |]). apply Forall_nil.
  - intros pre post. split; intros E;
      repeat (destruct pre as [| ? pre]; [cbn in E; discriminate E | cbn [app] in E; injection E as _ E]); destruct pre; discriminate E.
Qed.
