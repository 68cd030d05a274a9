(** Getters after setters (C46, C47). *)
From Coq Require Import SpecFloat.
From Verif Require Import Base Num OMap OMapSpec Keys Yaml Values Assign Formats Meta Out Xml Example DataType Doc Api Library Fields ApiFields TypeFacts Setters SetterSpec.

Section Run.
  Context {O Op V : Type} (apply : Op -> O -> O) (get : O -> V) (says : Op -> option V) (ok : Op -> Prop) (inv : O -> Prop).
  Hypothesis keeps : forall op o, ok op -> inv o -> inv (apply op o).
  Hypothesis one : forall op o, ok op -> inv o -> get (apply op o) = match says op with Some v => v | None => get o end.

  Lemma run_get ops : forall o, Forall ok ops -> inv o -> last_setter says ops (get o) (get (run apply ops o)).
  Proof using keeps one.
    induction ops as [|op ops IH]; intros o Hok Ho.
    - right. split; [constructor|reflexivity].
    - inversion Hok as [|x l H1 H2]; subst x l. cbn [run fold_left]. fold (run apply ops (apply op o)).
      pose proof (one op o H1 Ho) as Hg. destruct (IH (apply op o) H2 (keeps op o H1 Ho)) as [[pre [p [post [E [S N]]]]]|[N E]].
      + left. exists (op :: pre), p, post. split; [rewrite E; reflexivity|]. split; assumption.
      + destruct (says op) as [v|] eqn:S.
        * left. exists [], op, ops. split; [reflexivity|]. split; [|exact N]. rewrite S. f_equal. unfold run in *. rewrite E. symmetry. exact Hg.
        * right. split; [constructor; assumption|]. rewrite E. exact Hg.
  Qed.
End Run.

Lemma last_setter_fun {Op V} (says : Op -> option V) ops b v w : last_setter says ops b v -> last_setter says ops b w -> v = w.
Proof.
  assert (K : forall l pre (op : Op) post x, l = pre ++ op :: post -> says op = Some x -> Forall (fun q => says q = None) l -> False).
  { intros l pre op post x -> S N. apply Forall_app in N as [_ N]. inversion N as [|q r N1 N2]; subst. congruence. }
  assert (L : forall pre pre' (op op' : Op) post post' x y, pre ++ op :: post = pre' ++ op' :: post' -> says op = Some x -> says op' = Some y ->
    Forall (fun q => says q = None) post -> Forall (fun q => says q = None) post' -> x = y).
  { induction pre as [|a pre IH]; intros [|a' pre'] op op' post post' x y E S S' N N'; cbn in E; injection E as E1 E2; subst.
    - congruence.
    - exfalso. eapply K; eauto.
    - exfalso. eapply (K _ pre op post); eauto.
    - eapply IH; eauto. }
  intros [[p [o [q [E [S N]]]]]|[N E]] [[p' [o' [q' [E' [S' N']]]]]|[N' E']].
  - subst ops. eapply L; eauto.
  - exfalso. eapply K; eauto.
  - exfalso. eapply K; eauto.
  - congruence.
Qed.

Lemma all_true {A} (l : list A) : Forall (fun _ => True) l.
Proof. induction l; constructor; auto. Qed.

Ltac easy_run := apply (run_get _ _ _ (fun _ => True) (fun _ => True)); [auto|intros op o _ _|apply all_true|exact I].

Lemma doc_setters ops d :
  last_setter says_doc_title ops (doc_title d) (doc_title (run doc_apply ops d)) /\
  last_setter says_doc_content ops (doc_content d) (doc_content (run doc_apply ops d)) /\
  doc_extra (run doc_apply ops d) = doc_extra d.
Proof.
  split; [|split].
  - easy_run. destruct op; reflexivity.
  - easy_run. destruct op; reflexivity.
  - revert d. induction ops as [|op ops IH]; intros d; [reflexivity|]. cbn [run fold_left]. fold (run doc_apply ops (doc_apply op d)).
    rewrite IH. destruct op; reflexivity.
Qed.

Lemma xml_setters ops x :
  last_setter says_attribute ops (xml_attr x) (xml_attr (run xml_apply ops x)) /\
  last_setter says_wrapped ops (xml_wrap x) (xml_wrap (run xml_apply ops x)) /\
  last_setter says_name ops (xml_name x) (xml_name (run xml_apply ops x)) /\
  last_setter says_namespace ops (xml_ns x) (xml_ns (run xml_apply ops x)) /\
  last_setter says_prefix ops (xml_pref x) (xml_pref (run xml_apply ops x)) /\
  xml_extra (run xml_apply ops x) = xml_extra x.
Proof.
  repeat split; try (easy_run; destruct op; reflexivity).
  revert x. induction ops as [|op ops IH]; intros x; [reflexivity|]. cbn [run fold_left]. fold (run xml_apply ops (xml_apply op x)).
  rewrite IH. destruct op; reflexivity.
Qed.

Lemma ex_setters ops e :
  last_setter says_ex_display ops (ex_display e) (ex_display (run ex_apply ops e)) /\
  last_setter says_ex_description ops (ex_descr e) (ex_descr (run ex_apply ops e)) /\
  last_setter says_ex_annotations ops (ex_anns e) (ex_anns (run ex_apply ops e)) /\
  last_setter says_ex_value ops (ex_value e) (ex_value (run ex_apply ops e)) /\
  last_setter says_ex_strict ops (ex_strict e) (ex_strict (run ex_apply ops e)) /\
  ex_extra (run ex_apply ops e) = ex_extra e.
Proof.
  repeat split; try (easy_run; destruct op as [| | | |[m|]| | | |]; reflexivity).
  revert e. induction ops as [|op ops IH]; intros e; [reflexivity|]. cbn [run fold_left]. fold (run ex_apply ops (ex_apply op e)).
  rewrite IH. destruct op; reflexivity.
Qed.

Lemma api_setters f ops a : last_setter (says_api f) ops (aget f a) (aget f (run api_apply ops a)).
Proof.
  easy_run. destruct f, op; try reflexivity;
    match goal with m : option _ |- _ => destruct m; reflexivity end.
Qed.

Lemma lib_setters f ops l : last_setter (says_lib f) ops (lget f l) (lget f (run lib_apply ops l)).
Proof.
  easy_run. destruct f, op; try reflexivity;
    match goal with m : option _ |- _ => destruct m; reflexivity end.
Qed.

Lemma type_shape op d : same_shape (type_apply op d) d = true.
Proof. destruct d as [b|b x fs c s]; [reflexivity|]. destruct s, op; reflexivity. Qed.
Lemma type_kind op d : d_kind (type_apply op d) = d_kind d.
Proof. destruct d as [b|b x fs c s]; [reflexivity|]. destruct op; reflexivity. Qed.

Lemma type_keeps k op d : shaped d /\ d_kind d = k -> shaped (type_apply op d) /\ d_kind (type_apply op d) = k.
Proof.
  intros [S K]. split; [|rewrite type_kind; exact K]. unfold shaped in *. rewrite type_kind.
  eapply same_shape_trans; [apply type_shape|exact S].
Qed.

Lemma type_one k f op d : has_setter k op = true -> shaped d /\ d_kind d = k ->
  getf f (type_apply op d) = match says_type k f op with Some v => v | None => getf f d end.
Proof.
  intros Hh [S K]. unfold shaped in S. rewrite K in S. unfold says_type, field_eqb.
  destruct d as [b|b x fs c s].
  - destruct k; try discriminate S; destruct op; discriminate Hh.
  - destruct k; try discriminate S; destruct s; try discriminate S; destruct op; try discriminate Hh;
      cbn [sets fst snd]; match goal with |- context[field_dec ?g f] => destruct (field_dec g f) as [<-|N] end;
      try reflexivity; try (match goal with m : option _ |- _ => destruct m; reflexivity end);
      destruct f; try reflexivity; congruence.
Qed.

Lemma type_setters k f ops d : shaped d -> d_kind d = k -> Forall (fun op => has_setter k op = true) ops ->
  last_setter (says_type k f) ops (getf f d) (getf f (run type_apply ops d)).
Proof.
  intros S K H. apply (run_get type_apply (getf f) (says_type k f) (fun op => has_setter k op = true) (fun d => shaped d /\ d_kind d = k)).
  - intros op o _ I. apply type_keeps. exact I.
  - intros op o H1 I. apply type_one; assumption.
  - exact H.
  - auto.
Qed.

Lemma type_setters_kind ops d : d_kind (run type_apply ops d) = d_kind d.
Proof.
  revert d. induction ops as [|op ops IH]; intros d; [reflexivity|]. cbn [run fold_left]. fold (run type_apply ops (type_apply op d)).
  rewrite IH. apply type_kind.
Qed.
