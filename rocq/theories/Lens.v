(** Loops seen through one part of their state. *)
From Coq Require Import Permutation.
From Verif Require Import Base Num OMap OMapSpec Keys Yaml Values Assign AssignProofs FieldProofs.

(** The last element that satisfies [p]. *)
Definition last_of {A} (p : A -> bool) (l : list A) : option A := find p (rev l).

Lemma last_of_snoc {A} (p : A -> bool) l a : last_of p (l ++ [a]) = if p a then Some a else last_of p l.
Proof. unfold last_of. rewrite rev_app_distr. reflexivity. Qed.

Lemma last_of_some {A} (p : A -> bool) l a : last_of p l = Some a <->
  exists pre post, l = pre ++ a :: post /\ p a = true /\ (forall b, In b post -> p b = false).
Proof.
  induction l as [|b l IH] using rev_ind.
  - split; [discriminate|]. intros [pre [post [E _]]]. destruct pre; discriminate.
  - rewrite last_of_snoc. destruct (p b) eqn:Eb.
    + split.
      * intros E. injection E as <-. exists l, []. split; [reflexivity|]. split; [exact Eb|]. intros ? [].
      * intros [pre [post [E [Ha Hn]]]]. destruct post as [|c post _] using rev_ind.
        { apply app_inj_tail in E as [_ ->]. reflexivity. }
        change (a :: post ++ [c]) with ((a :: post) ++ [c]) in E. rewrite app_assoc in E.
        apply app_inj_tail in E as [_ ->]. rewrite (Hn c) in Eb; [discriminate|]. apply in_or_app; right; left; reflexivity.
    + rewrite IH. split.
      * intros [pre [post [-> [Ha Hn]]]]. exists pre, (post ++ [b]). rewrite <- app_assoc. split; [reflexivity|].
        split; [exact Ha|]. intros c Hc. apply in_app_or in Hc as [Hc|[<-|[]]]; auto.
      * intros [pre [post [E [Ha Hn]]]]. destruct post as [|c post _] using rev_ind.
        { apply app_inj_tail in E as [_ ->]. congruence. }
        change (a :: post ++ [c]) with ((a :: post) ++ [c]) in E. rewrite app_assoc in E.
        apply app_inj_tail in E as [-> _]. exists pre, post. split; [reflexivity|]. split; [exact Ha|].
        intros d Hd. apply Hn. apply in_or_app; auto.
Qed.

Lemma last_of_none {A} (p : A -> bool) l : last_of p l = None <-> forall b, In b l -> p b = false.
Proof.
  unfold last_of. split.
  - intros H b Hb. eapply find_none; [exact H|]. apply -> in_rev. exact Hb.
  - intros H. destruct (find p (rev l)) as [a|] eqn:E; [|reflexivity]. apply find_some in E as [Hi Hp].
    apply in_rev in Hi. rewrite (H a Hi) in Hp. discriminate.
Qed.

Section Lens.
  Context {S A B : Type}.
  Variable f : S -> A -> res S.
  Variable get : S -> B.
  Variable mine : A -> bool.

  (** Only some elements touch the part, and they act on it alone. *)
  Lemma fold_lens (g : B -> A -> res B) :
    (forall s a s', f s a = Ok s' -> if mine a then g (get s) a = Ok (get s') else get s' = get s) ->
    forall l s s', fold_res f s l = Ok s' -> fold_res g (get s) (filter mine l) = Ok (get s').
  Proof.
    intros H l. induction l as [|a l IH]; intros s s' Hf; cbn in Hf.
    - injection Hf as <-. reflexivity.
    - apply bind_ok in Hf as [s1 [H1 Hf]]. specialize (H s a s1 H1). apply IH in Hf. cbn [filter].
      destruct (mine a).
      + cbn. rewrite H. exact Hf.
      + rewrite <- H. exact Hf.
  Qed.

  (** They replace it. *)
  Lemma lens_last (R : A -> B -> Prop) :
    (forall s a s', f s a = Ok s' -> if mine a then R a (get s') else get s' = get s) ->
    forall l s s', fold_res f s l = Ok s' ->
    match last_of mine l with Some a => R a (get s') | None => get s' = get s end.
  Proof.
    intros H l. induction l as [|a l IH] using rev_ind; intros s s' Hf.
    - cbn in *. injection Hf as <-. reflexivity.
    - rewrite fold_res_app in Hf. apply bind_ok in Hf as [s1 [H1 Hf]]. cbn in Hf. rewrite bind_ret in Hf.
      apply IH in H1. specialize (H s1 a s' Hf). rewrite last_of_snoc. destruct (mine a); [exact H|].
      rewrite H. exact H1.
  Qed.

  (** They act by a total function. *)
  Lemma lens_total (g : B -> A -> B) :
    (forall s a s', f s a = Ok s' -> get s' = if mine a then g (get s) a else get s) ->
    forall l s s', fold_res f s l = Ok s' -> get s' = fold_left g (filter mine l) (get s).
  Proof.
    intros H l. induction l as [|a l IH]; intros s s' Hf; cbn in Hf.
    - injection Hf as <-. reflexivity.
    - apply bind_ok in Hf as [s1 [H1 Hf]]. specialize (H s a s1 H1). apply IH in Hf. cbn [filter].
      destruct (mine a); cbn [fold_left]; rewrite Hf, H; reflexivity.
  Qed.
End Lens.

(** Whether an element is accepted does not depend on the state. *)
Lemma fold_accept {S A} (f : S -> A -> res S) (good : A -> Prop) :
  (forall s a, (exists s', f s a = Ok s') <-> good a) ->
  forall l s, (exists s', fold_res f s l = Ok s') <-> Forall good l.
Proof.
  intros H l. induction l as [|a l IH]; intros s; cbn.
  - split; [constructor|eauto].
  - split.
    + intros [s' Hf]. apply bind_ok in Hf as [s1 [H1 Hf]]. constructor; [apply (H s); eauto|apply (IH s1); eauto].
    + intros Hf. inversion Hf as [|x y Ha Hl]; subst. apply (H s) in Ha as [s1 H1]. rewrite H1. cbn. apply IH. exact Hl.
Qed.

(** Dropping an element that a later one overrides. *)
Lemma last_of_skip {A} (p : A -> bool) pre a mid b post : (p a = true -> p b = true) ->
  last_of p (pre ++ a :: mid ++ b :: post) = last_of p (pre ++ mid ++ b :: post).
Proof.
  intros H. unfold last_of. rewrite !rev_app_distr. cbn [rev]. rewrite !rev_app_distr. cbn [rev].
  rewrite <- !app_assoc. cbn [app].
  induction (rev post) as [|c r IH]; cbn [app find].
  - destruct (p b) eqn:Eb; [reflexivity|]. assert (H0 : p a = false) by (destruct (p a); [discriminate (H eq_refl)|reflexivity]).
    induction (rev mid) as [|d r IH]; cbn [app find]; [rewrite H0; reflexivity|]. destruct (p d); [reflexivity|exact IH].
  - destruct (p c); [reflexivity|exact IH].
Qed.
