(** The edits of Live.v are the methods of the maps (OMap.v). *)
From Coq Require Import SpecFloat.
From Verif Require Import Base Num OMap OMapSpec OMapProofs MapFacts Keys Yaml Values Assign Formats Meta Out Xml Example DataType Marshal Doc Api Library Setters Live.

Section LiveMap.
  Context {K V : Type} (keq : K -> K -> bool) (h : K -> bool).

  Lemma delete_flag k (m m' : omap K V) : delete keq h k m = Ok m' -> outOrder m' = outOrder m.
  Proof.
    unfold delete. intros H. apply bind_ok in H as [p [_ H]]. destruct p as [j|]; [|injection H as <-; reflexivity].
    apply bind_ok in H as [ix [_ H]]. injection H as <-. reflexivity.
  Qed.

  Lemma put_flag k v (m m' : omap K V) : put keq h k v m = Ok m' -> outOrder m' = outOrder m.
  Proof.
    unfold put. intros H. apply bind_ok in H as [m1 [D H]]. apply delete_flag in D. apply bind_ok in H as [ix [_ H]]. injection H as <-. exact D.
  Qed.

  Lemma replace_flag k v (m m' : omap K V) : replace_if_exists keq h k v m = Ok m' -> outOrder m' = outOrder m.
  Proof.
    unfold replace_if_exists. intros H. apply bind_ok in H as [p [_ H]]. destruct p as [j|]; [|injection H as <-; reflexivity].
    apply bind_ok in H as [ix [_ H]]. injection H as <-. reflexivity.
  Qed.

  Lemma step_flag o (m m' : omap K V) r : step keq h m o = Ok (m', r) -> outOrder m' = match o with OSerializeOrdered b => b | _ => outOrder m end.
  Proof.
    destruct o as [k v|k [v|]|k v|k v|k|b|k|k|k| |j|k|]; cbn [step]; unfold upd, ask; intros H;
      try (apply bind_ok in H as [x [A H]]; injection H as <- <-).
    - eapply put_flag. exact A.
    - eapply put_flag. exact A.
    - injection A as <-. reflexivity.
    - unfold replace_or_put in A. apply bind_ok in A as [b [_ A]]. destruct b; [eapply replace_flag|eapply put_flag]; exact A.
    - eapply replace_flag. exact A.
    - eapply delete_flag. exact A.
    - injection H as <- <-. reflexivity.
    - reflexivity.
    - reflexivity.
    - reflexivity.
    - injection H as <- <-. reflexivity.
    - reflexivity.
    - reflexivity.
    - rewrite for_each_collect in A. injection A as <-. reflexivity.
  Qed.

  Context (Hsym : forall a b, keq a b = keq b a) (Htr : forall a b c, keq a b = true -> keq b c = true -> keq a c = true).

  Lemma edit_step (m : omap K V) o m' r : Inv keq h m -> keys_good keq h o -> step keq h m o = Ok (m', r) ->
    map_edit keq o (mkMap (ordered m) (outOrder m)) = mkMap (ordered m') (outOrder m').
  Proof.
    intros Hi Hk H. unfold map_edit. cbn [ents oord]. pose proof (step_ok K V keq h Hsym Htr m o Hi Hk) as S. rewrite (step_flag _ _ _ _ H).
    destruct (sstep keq (ordered m) o) as [[l x]|]; [|congruence]. destruct S as [m1 [E [_ O]]]. assert (m1 = m') by congruence. subst m1. rewrite O. reflexivity.
  Qed.

  Lemma edit_steps ops : forall m m' : omap K V, Inv keq h m -> Forall (keys_good keq h) ops -> exec keq h m ops = Ok m' ->
    fold_left (fun m o => map_edit keq o m) ops (mkMap (ordered m) (outOrder m)) = mkMap (ordered m') (outOrder m').
  Proof.
    induction ops as [|o ops IH]; intros m m' Hi Hk H; [injection H as <-; reflexivity|]. inversion Hk as [|x y K1 K2]; subst.
    cbn [exec] in H. apply bind_ok in H as [[m1 r] [S H]]. cbn [fst] in H. cbn [fold_left]. rewrite (edit_step m o m1 r Hi K1 S).
    apply IH; [|exact K2|exact H]. eapply step_inv; eassumption.
  Qed.
End LiveMap.

Lemma string_edits {V} (ops : list (op string V)) (m m' : omap string V) : sm_reachable m -> sm_exec m ops = Ok m' ->
  fold_left (fun m o => map_edit String.eqb o m) ops (mkMap (entries m) (outOrder m)) = mkMap (entries m') (outOrder m').
Proof.
  intros R H. rewrite !entries_ordered. apply (edit_steps String.eqb any_hash seq_sym seq_trans ops m m'); [apply sm_inv; exact R|apply skeys_goods|exact H].
Qed.

Lemma any_edits {V} (ops : list (op gkey V)) (m m' : omap gkey V) : am_reachable m -> Forall op_proper ops -> am_exec m ops = Ok m' ->
  fold_left (fun m o => map_edit gkey_eqb o m) ops (mkMap (entries m) (outOrder m)) = mkMap (entries m') (outOrder m').
Proof.
  intros [ops0 [P0 R]] P H.
  assert (G : forall l : list (op gkey V), Forall op_proper l -> Forall (keys_good gkey_eqb gkey_hashable) l).
  { intros l Hl. eapply Forall_impl; [|exact Hl]. intros o Ho. unfold keys_good. eapply Forall_impl; [|exact Ho]. exact gkey_proper_good. }
  rewrite !entries_ordered. apply (edit_steps gkey_eqb gkey_hashable gkey_eqb_sym gkey_eqb_trans ops m m'); [|apply G; exact P|exact H].
  eapply (exec_inv gkey V gkey_eqb gkey_hashable gkey_eqb_sym gkey_eqb_trans new_map ops0 m); [apply inv_new|apply G; exact P0|exact R].
Qed.
