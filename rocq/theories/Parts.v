(** Readers that put each pair into one part of their state. *)
From Coq Require Import Permutation.
From Verif Require Import Base Num OMap OMapSpec Keys Yaml Values Assign Meta Out AssignProofs FieldProofs Segs Lens.

Section Parts.
  (** The state, the pairs, the parts and the types of the parts. *)
  Context {S E P : Type} (ty : P -> Type).
  Variable get : forall p, S -> ty p.
  Variable set : forall p, ty p -> S -> S.
  Variable dec : forall p q : P, {p = q} + {p <> q}.
  (** The part a pair goes to (none: panic), and what it does there. *)
  Variable target : E -> option P.
  Variable step : forall p, ty p -> E -> res (ty p).
  Variable assign : S -> E -> res S.

  Hypothesis assign_step : forall s e, assign s e =
    match target e with None => Panic | Some p => do v <- step p (get p s) e; Ok (set p v s) end.
  Hypothesis get_set_same : forall p v s, get p (set p v s) = v.
  Hypothesis get_set_other : forall p q v s, p <> q -> get q (set p v s) = get q s.

  Definition mine (p : P) (e : E) : bool := match target e with Some q => if dec p q then true else false | None => false end.

  Lemma mine_target p e : mine p e = true <-> target e = Some p.
  Proof.
    unfold mine. destruct (target e) as [q|]; [|split; discriminate]. destruct (dec p q) as [->|N]; split; congruence.
  Qed.

  Lemma assign_ok s e s' : assign s e = Ok s' ->
    exists p v, target e = Some p /\ step p (get p s) e = Ok v /\ s' = set p v s.
  Proof.
    rewrite assign_step. destruct (target e) as [p|]; [|discriminate]. intros H. apply bind_ok in H as [v [H1 H2]].
    injection H2 as <-. eauto.
  Qed.

  (** Each part is read from its own pairs, in their order. *)
  Lemma parts_fold l s s' : fold_res assign s l = Ok s' -> forall p, fold_res (step p) (get p s) (filter (mine p) l) = Ok (get p s').
  Proof.
    intros H p. revert l s s' H. apply (fold_lens assign (get p) (mine p) (step p)). intros s e s' H.
    apply assign_ok in H as [q [v [Ht [Hs ->]]]]. destruct (mine p e) eqn:M.
    - apply mine_target in M. rewrite M in Ht. injection Ht as <-. rewrite get_set_same. exact Hs.
    - apply get_set_other. intros <-. apply mine_target in Ht. congruence.
  Qed.

  Lemma parts_target l s s' : fold_res assign s l = Ok s' -> forall e, In e l -> exists p, target e = Some p.
  Proof.
    revert s. induction l as [|e l IH]; intros s H a [].
    - subst a. cbn in H. apply bind_ok in H as [s1 [H1 _]]. apply assign_ok in H1 as [p [v [H1 _]]]. eauto.
    - cbn in H. apply bind_ok in H as [s1 [_ H]]. eapply IH; eassumption.
  Qed.

  (** And that is all that is needed. *)
  Lemma fold_parts l : forall s, (forall e, In e l -> exists p, target e = Some p) ->
    (forall p, exists v, fold_res (step p) (get p s) (filter (mine p) l) = Ok v) ->
    exists s', fold_res assign s l = Ok s'.
  Proof.
    induction l as [|e l IH]; intros s Ht H; [eexists; reflexivity|]. cbn [fold_res].
    destruct (Ht e (or_introl eq_refl)) as [p Hp]. rewrite assign_step, Hp.
    destruct (H p) as [w Hw]. cbn [filter] in Hw.
    assert (M : mine p e = true) by (apply mine_target; exact Hp). rewrite M in Hw. cbn in Hw. apply bind_ok in Hw as [v [Hv Hw]].
    rewrite Hv. cbn [bind]. apply IH.
    - intros a Ha. apply Ht. right. exact Ha.
    - intros q. destruct (dec p q) as [<-|N].
      + rewrite get_set_same. eauto.
      + rewrite get_set_other by exact N. destruct (H q) as [u Hu]. cbn [filter] in Hu.
        assert (M' : mine q e = false). { destruct (mine q e) eqn:X; [|reflexivity]. apply mine_target in X. congruence. }
        rewrite M' in Hu. eauto.
  Qed.

  Lemma fold_parts_ok l s (v : forall p, ty p) : (forall e, In e l -> exists p, target e = Some p) ->
    (forall p, fold_res (step p) (get p s) (filter (mine p) l) = Ok (v p)) ->
    exists s', fold_res assign s l = Ok s' /\ forall p, get p s' = v p.
  Proof.
    intros Ht H. destruct (fold_parts l s Ht) as [s' Hs]; [intros p; eauto|]. exists s'. split; [exact Hs|].
    intros p. pose proof (parts_fold l s s' Hs p) as Hp. rewrite H in Hp. congruence.
  Qed.

  (** Acceptance of a pair does not depend on the state. *)
  Lemma parts_accept (good : E -> Prop) :
    (forall e p v, target e = Some p -> ((exists w, step p v e = Ok w) <-> good e)) ->
    (forall e, target e = None -> ~ good e) ->
    forall l s, (exists s', fold_res assign s l = Ok s') <-> Forall good l.
  Proof.
    intros H1 H2. apply fold_accept. intros s e. rewrite assign_step. destruct (target e) as [p|] eqn:Et.
    - rewrite <- (H1 e p (get p s) Et). split.
      + intros [s' H]. apply bind_ok in H as [v [H _]]. eauto.
      + intros [v H]. rewrite H. cbn. eauto.
    - split; [intros [s' H]; discriminate H|intros H; destruct (H2 e Et H)].
  Qed.

  Lemma parts_panic l s : fold_res assign s l = Panic ->
    exists e, In e l /\ (target e = None \/ exists p v, target e = Some p /\ step p v e = Panic).
  Proof.
    revert s. induction l as [|e l IH]; intros s H; [discriminate H|]. cbn [fold_res] in H.
    destruct (assign s e) as [s1| |] eqn:A; cbn in H; try discriminate H.
    - destruct (IH s1 H) as [a [Ha Hp]]. exists a. split; [right; exact Ha|exact Hp].
    - exists e. split; [left; reflexivity|]. rewrite assign_step in A. destruct (target e) as [p|]; [right|left; reflexivity].
      exists p, (get p s). split; [reflexivity|]. destruct (step p (get p s) e); try discriminate A. reflexivity.
  Qed.

  (** Pairs listed part by part. *)
  Lemma filter_own (lf : P -> list E) (order : list P) : NoDup order -> (forall p e, In e (lf p) -> mine p e = true) ->
    forall p, In p order -> filter (mine p) (flat_map lf order) = lf p.
  Proof.
    intros Nd Hm. assert (Z : forall p order, ~ In p order -> filter (mine p) (flat_map lf order) = []).
    { intros p o. induction o as [|q o IH]; intros H; [reflexivity|]. cbn [flat_map]. rewrite filter_app, IH by (intros X; apply H; right; exact X).
      rewrite app_nil_r. assert (N : q <> p) by (intros ->; apply H; left; reflexivity).
      clear -Hm N. assert (A : forall e, In e (lf q) -> mine p e = false).
      { intros e He. specialize (Hm q e He). apply mine_target in Hm. destruct (mine p e) eqn:X; [|reflexivity]. apply mine_target in X. congruence. }
      clear Hm. induction (lf q) as [|e r IH]; [reflexivity|]. cbn. rewrite A by (left; reflexivity). apply IH. intros a Ha. apply A. right. exact Ha. }
    induction Nd as [|q o Hq Nd IH]; intros p Hp; [destruct Hp|]. cbn [flat_map]. rewrite filter_app. destruct (dec p q) as [->|N].
    - rewrite (Z q o Hq), app_nil_r. clear -Hm. assert (A : forall e, In e (lf q) -> mine q e = true) by (intros e He; apply Hm; exact He).
      induction (lf q) as [|e r IH]; [reflexivity|]. cbn. rewrite A by (left; reflexivity). f_equal. apply IH. intros a Ha. apply A. right. exact Ha.
    - destruct Hp as [->|Hp]; [congruence|]. rewrite (IH p Hp).
      assert (X : filter (mine p) (lf q) = []); [|rewrite X; reflexivity].
      assert (A : forall e, In e (lf q) -> mine p e = false).
      { intros e He. specialize (Hm q e He). apply mine_target in Hm. destruct (mine p e) eqn:X; [|reflexivity]. apply mine_target in X. congruence. }
      clear -A. induction (lf q) as [|e r IH]; [reflexivity|]. cbn. rewrite A by (left; reflexivity). apply IH. intros a Ha. apply A. right. exact Ha.
  Qed.

  (** Choosing for each part. *)
  Lemma choose_lists (order : list P) (G : P -> list E -> Prop) : (forall p, exists l, G p l) ->
    exists lf : P -> list E, forall p, In p order -> G p (lf p).
  Proof.
    intros H. induction order as [|p o [lf Hf]]; [exists (fun _ => []); intros p []|]. destruct (H p) as [l Hl].
    exists (fun q => if dec p q then l else lf q). intros q Hq. destruct (dec p q) as [<-|N]; [exact Hl|].
    destruct Hq as [E'|Hq]; [contradiction|auto].
  Qed.

  Lemma parts_round {W} (wr : W -> E -> Prop) (seg : P -> list W) (order : list P) (R : forall p, ty p -> Prop) s0 :
    NoDup order -> (forall p, In p order) ->
    (forall p, exists l, Forall2 wr (seg p) l /\ (forall e, In e l -> mine p e = true) /\
       exists v, fold_res (step p) (get p s0) l = Ok v /\ R p v) ->
    exists l s', Forall2 wr (flat_map seg order) l /\ fold_res assign s0 l = Ok s' /\ forall p, R p (get p s').
  Proof.
    intros Nd Hall H. destruct (choose_lists order _ H) as [lf Hf].
    assert (Hm : forall p e, In e (lf p) -> mine p e = true) by (intros p; apply (Hf p (Hall p))).
    exists (flat_map lf order).
    assert (X : exists s', fold_res assign s0 (flat_map lf order) = Ok s').
    { apply fold_parts.
      - intros e He. apply in_flat_map in He as [p [_ He]]. exists p. apply mine_target. auto.
      - intros p. rewrite (filter_own lf order Nd Hm p (Hall p)). destruct (Hf p (Hall p)) as [_ [_ [v [Hv _]]]]. eauto. }
    destruct X as [s' Hs]. exists s'. split; [|split; [exact Hs|]].
    - clear -Hf. assert (A : forall p, In p order -> Forall2 wr (seg p) (lf p)) by (intros p Hp; apply (Hf p Hp)).
      clear Hf. induction order as [|p o IH]; [constructor|]. cbn. apply Forall2_app; [apply A; left; reflexivity|].
      apply IH. intros q Hq. apply A. right. exact Hq.
    - intros p. pose proof (parts_fold _ _ _ Hs p) as Hp. rewrite (filter_own lf order Nd Hm p (Hall p)) in Hp.
      destruct (Hf p (Hall p)) as [_ [_ [v [Hv Hr]]]]. rewrite Hv in Hp. injection Hp as <-. exact Hr.
  Qed.
End Parts.
