(** Refinement of OMap.v to OMapSpec.v, and the laws of the specification. *)
From Verif Require Import Base OMap OMapSpec.

Section Proofs.
  Variables K V : Type.
  Variable keq : K -> K -> bool.
  Variable hashable : K -> bool.
  Hypothesis keq_sym : forall a b, keq a b = keq b a.
  Hypothesis keq_trans : forall a b c, keq a b = true -> keq b c = true -> keq a c = true.

  (** keys a Go map can find again: hashable and equal to themselves *)
  Definition good (k : K) : Prop := hashable k = true /\ keq k k = true.

  Fixpoint uniq (l : list (K * V)) : Prop :=
    match l with
    | [] => True
    | e :: t => Forall (fun e' => keq (fst e') (fst e) = false) t /\ uniq t
    end.

  Record Inv (m : omap K V) : Prop := {
    inv_uniq : uniq (ordered m);
    inv_good : Forall (fun e => good (fst e)) (ordered m);
    inv_iuniq : uniq (index m);
    inv_igood : Forall (fun e => good (fst e)) (index m);
    inv_find : forall k, gomap_find keq k (index m) = sget keq k (ordered m)
  }.

  Lemma keq_false_trans a b c :
    keq a b = true -> keq c b = false -> keq c a = false.
  Proof.
    intros Hab Hcb. destruct (keq c a) eqn:E; [|reflexivity].
    rewrite (keq_trans c a b E Hab) in Hcb; discriminate.
  Qed.

  Lemma sget_cons k (e : K * V) l :
    sget keq k (e :: l) = if keq (fst e) k then Some (snd e) else sget keq k l.
  Proof. unfold sget; simpl. destruct (keq (fst e) k); reflexivity. Qed.

  Lemma sget_gomap k (l : list (K * V)) : gomap_find keq k l = sget keq k l.
  Proof.
    induction l as [|[k' v] l IH]; [reflexivity|].
    rewrite sget_cons; simpl. rewrite IH; reflexivity.
  Qed.

  Lemma sget_none_forall k (l : list (K * V)) :
    sget keq k l = None <-> Forall (fun e => keq (fst e) k = false) l.
  Proof.
    induction l as [|e l IH]; [split; intros; [constructor|reflexivity]|].
    rewrite sget_cons. destruct (keq (fst e) k) eqn:E; split; intros H.
    - discriminate.
    - inversion H; congruence.
    - constructor; [exact E|apply IH; exact H].
    - inversion H; apply IH; assumption.
  Qed.

  Lemma sget_app k (l1 l2 : list (K * V)) :
    sget keq k (l1 ++ l2) =
    match sget keq k l1 with Some v => Some v | None => sget keq k l2 end.
  Proof.
    induction l1 as [|e l1 IH]; [reflexivity|].
    simpl app. rewrite !sget_cons. destruct (keq (fst e) k); auto.
  Qed.

  Lemma shas_sget k (l : list (K * V)) :
    shas keq k l = match sget keq k l with Some _ => true | None => false end.
  Proof.
    induction l as [|e l IH]; [reflexivity|].
    rewrite sget_cons; simpl. destruct (keq (fst e) k); auto.
  Qed.

  Lemma sdelete_none k (l : list (K * V)) :
    Forall (fun e => keq (fst e) k = false) l -> sdelete keq k l = l.
  Proof.
    unfold sdelete. induction 1 as [|e l He _ IH]; simpl; [reflexivity|].
    unfold other at 1; rewrite He; simpl; rewrite IH; reflexivity.
  Qed.

  Lemma sget_sdelete_same k (l : list (K * V)) : sget keq k (sdelete keq k l) = None.
  Proof.
    unfold sdelete. induction l as [|e l IH]; simpl; [reflexivity|].
    unfold other at 1. destruct (keq (fst e) k) eqn:E; simpl; [exact IH|].
    rewrite sget_cons, E; exact IH.
  Qed.

  Lemma sget_sdelete_other k k' (l : list (K * V)) :
    keq k k' = false -> sget keq k' (sdelete keq k l) = sget keq k' l.
  Proof.
    intros Hk. unfold sdelete. induction l as [|e l IH]; simpl; [reflexivity|].
    unfold other at 1. rewrite sget_cons.
    destruct (keq (fst e) k) eqn:E; simpl.
    - replace (keq (fst e) k') with false; [exact IH|].
      symmetry. rewrite keq_sym. apply keq_false_trans with (b := k); auto.
      rewrite keq_sym; exact Hk.
    - rewrite sget_cons. destruct (keq (fst e) k'); auto.
  Qed.

  Lemma sget_congr k k' (l : list (K * V)) : keq k k' = true -> sget keq k l = sget keq k' l.
  Proof.
    intros Hk. induction l as [|e l IH]; [reflexivity|].
    rewrite !sget_cons.
    replace (keq (fst e) k') with (keq (fst e) k); [rewrite IH; reflexivity|].
    destruct (keq (fst e) k) eqn:E.
    - symmetry; apply keq_trans with k; auto.
    - destruct (keq (fst e) k') eqn:E'; [|reflexivity].
      rewrite keq_sym in Hk. rewrite (keq_trans _ _ _ E' Hk) in E; discriminate.
  Qed.

  Lemma sget_sput k k' v (l : list (K * V)) :
    sget keq k' (sput keq k v l) = if keq k k' then Some v else sget keq k' l.
  Proof.
    unfold sput. rewrite sget_app. rewrite sget_cons; simpl fst; simpl snd.
    destruct (keq k k') eqn:E.
    - rewrite <- (sget_congr k k' _ E), sget_sdelete_same. reflexivity.
    - rewrite sget_sdelete_other by exact E.
      destruct (sget keq k' l); reflexivity.
  Qed.

  Lemma sreplace_fst k v (l : list (K * V)) : map fst (sreplace keq k v l) = map fst l.
  Proof.
    unfold sreplace. rewrite map_map. apply map_ext. intros e.
    destruct (keq (fst e) k); reflexivity.
  Qed.

  Lemma sget_sreplace k k' v (l : list (K * V)) :
    sget keq k' (sreplace keq k v l) =
    if keq k k' then (if shas keq k l then Some v else None) else sget keq k' l.
  Proof.
    induction l as [|e l IH]; [simpl; destruct (keq k k'); reflexivity|].
    simpl sreplace. rewrite sget_cons. simpl shas.
    destruct (keq (fst e) k) eqn:E; simpl fst; simpl snd.
    - destruct (keq k k') eqn:E'.
      + rewrite (keq_trans _ _ _ E E'); reflexivity.
      + rewrite sget_cons. replace (keq (fst e) k') with false.
        * rewrite IH; reflexivity.
        * symmetry. rewrite keq_sym. apply keq_false_trans with (b := k); auto.
          rewrite keq_sym; exact E'.
    - simpl orb. destruct (keq k k') eqn:E'.
      + replace (keq (fst e) k') with false; [exact IH|].
        symmetry. apply keq_false_trans with k; [rewrite keq_sym; exact E'|exact E].
      + rewrite sget_cons. rewrite IH; reflexivity.
  Qed.

  (** ** The Go map *)

  Lemma gomap_find_upd k k' (v : V) m :
    keq k k = true ->
    gomap_find keq k' (gomap_upd keq k v m) =
    if keq k k' then Some v else gomap_find keq k' m.
  Proof.
    intros Hk. induction m as [|[k1 v1] m IH]; simpl; [reflexivity|].
    destruct (keq k1 k) eqn:E; simpl.
    - destruct (keq k1 k') eqn:E1; destruct (keq k k') eqn:E2; try reflexivity.
      + rewrite keq_sym in E. rewrite (keq_trans _ _ _ E E1) in E2; discriminate.
      + rewrite (keq_trans _ _ _ E E2) in E1; discriminate.
    - destruct (keq k1 k') eqn:E1; destruct (keq k k') eqn:E2; try reflexivity.
      + rewrite keq_sym in E2. rewrite (keq_trans _ _ _ E1 E2) in E; discriminate.
      + rewrite IH; reflexivity.
      + rewrite IH; reflexivity.
  Qed.

  Lemma gomap_upd_keys (P : K -> Prop) k (v : V) m :
    P k -> Forall (fun e => P (fst e)) m -> Forall (fun e => P (fst e)) (gomap_upd keq k v m).
  Proof.
    intros Hk. induction 1 as [|[k1 v1] m He Hm IH]; simpl.
    - constructor; auto.
    - destruct (keq k1 k); constructor; auto.
  Qed.

  Lemma gomap_upd_uniq k v m : uniq m -> uniq (gomap_upd keq k v m).
  Proof.
    induction m as [|[k1 v1] m IH]; simpl; [auto|].
    intros [H1 H2]. destruct (keq k1 k) eqn:E; simpl; [auto|].
    split; [|auto].
    apply (gomap_upd_keys (fun x => keq x k1 = false)); [|exact H1].
    rewrite keq_sym; exact E.
  Qed.

  Lemma gomap_rem_forall (P : K * V -> Prop) k m : Forall P m -> Forall P (gomap_rem keq k m).
  Proof.
    induction 1 as [|[k1 v1] m He Hm IH]; simpl; [constructor|].
    destruct (keq k1 k); [exact Hm|constructor; auto].
  Qed.

  Lemma gomap_rem_uniq k m : uniq m -> uniq (gomap_rem keq k m).
  Proof.
    induction m as [|[k1 v1] m IH]; simpl; [auto|].
    intros [H1 H2]. destruct (keq k1 k); simpl; [exact H2|].
    split; [apply gomap_rem_forall; exact H1|auto].
  Qed.

  Lemma gomap_rem_sdelete k m : uniq m -> gomap_rem keq k m = sdelete keq k m.
  Proof.
    unfold sdelete. induction m as [|[k1 v1] m IH]; simpl; [auto|].
    intros [H1 H2]. unfold other at 1; simpl. destruct (keq k1 k) eqn:E; simpl.
    - symmetry. apply (sdelete_none k).
      apply Forall_impl with (2 := H1). simpl. intros e He.
      apply keq_false_trans with k1; [rewrite keq_sym; exact E|exact He].
    - rewrite IH by exact H2. reflexivity.
  Qed.

  (** ** The slice *)

  Lemma scan_spos k (l : list (K * V)) j :
    scan keq j k l =
    if (spos keq k l <? 0)%Z then None else Some (j + Z.to_nat (spos keq k l)).
  Proof.
    revert j. induction l as [|[k1 v1] l IH]; intros j; [reflexivity|].
    cbn [scan spos fst]. destruct (keq k1 k).
    - simpl. rewrite Nat.add_0_r; reflexivity.
    - rewrite IH. destruct (Z.ltb_spec (spos keq k l) 0) as [H|H]; [reflexivity|].
      destruct (Z.ltb_spec (1 + spos keq k l) 0); [lia|].
      f_equal. lia.
  Qed.

  Lemma spos_ge k (l : list (K * V)) : (spos keq k l >= -1)%Z.
  Proof.
    induction l as [|e l IH]; cbn [spos]; [lia|].
    destruct (keq (fst e) k); [lia|]. destruct (Z.ltb_spec (spos keq k l) 0); lia.
  Qed.

  Lemma spos_none k (l : list (K * V)) : sget keq k l = None <-> spos keq k l = (-1)%Z.
  Proof.
    induction l as [|e l IH]; [split; reflexivity|].
    rewrite sget_cons; cbn [spos]. destruct (keq (fst e) k) eqn:E; [split; discriminate|].
    rewrite IH. pose proof (spos_ge k l) as Hge.
    destruct (Z.ltb_spec (spos keq k l) 0) as [H|H]; split; intros; lia.
  Qed.

  Lemma cut_scan k (l : list (K * V)) j i :
    uniq l -> scan keq i k l = Some (i + j) ->
    firstn j l ++ skipn (S j) l = sdelete keq k l.
  Proof.
    revert i j. induction l as [|[k1 v1] l IH]; intros i j; simpl; [discriminate|].
    intros [H1 H2]. unfold sdelete; simpl. unfold other at 1; simpl.
    destruct (keq k1 k) eqn:E; simpl.
    - intros H. assert (j = 0) as -> by (injection H as H; lia). simpl.
      symmetry; apply (sdelete_none k).
      apply Forall_impl with (2 := H1). simpl. intros e He.
      apply keq_false_trans with k1; [rewrite keq_sym; exact E|exact He].
    - intros H. destruct j as [|j].
      + rewrite scan_spos in H. destruct (Z.ltb (spos keq k l) 0); [discriminate|].
        injection H as H; lia.
      + simpl. f_equal. apply (IH (S i) j H2). rewrite H. f_equal; lia.
  Qed.

  Lemma set_val_scan k v (l : list (K * V)) j i :
    uniq l -> scan keq i k l = Some (i + j) -> set_val j v l = sreplace keq k v l.
  Proof.
    revert i j. induction l as [|[k1 v1] l IH]; intros i j; simpl; [discriminate|].
    intros [H1 H2]. destruct (keq k1 k) eqn:E.
    - intros H. assert (j = 0) as -> by (injection H as H; lia). simpl. f_equal.
      symmetry. unfold sreplace. rewrite <- map_id. apply map_ext_in. intros e He.
      replace (keq (fst e) k) with false; [reflexivity|].
      symmetry. apply keq_false_trans with k1; [rewrite keq_sym; exact E|].
      rewrite Forall_forall in H1; apply H1; exact He.
    - intros H. destruct j as [|j].
      + rewrite scan_spos in H. destruct (Z.ltb (spos keq k l) 0); [discriminate|].
        injection H as H; lia.
      + simpl. f_equal. apply (IH (S i) j H2). rewrite H. f_equal; lia.
  Qed.

  Lemma sreplace_absent k v (l : list (K * V)) : sget keq k l = None -> sreplace keq k v l = l.
  Proof.
    intros H. apply sget_none_forall in H. unfold sreplace. rewrite <- map_id.
    apply map_ext_in. intros e He. rewrite Forall_forall in H. rewrite (H e He). reflexivity.
  Qed.

  Lemma uniq_filter f (l : list (K * V)) : uniq l -> uniq (filter f l).
  Proof.
    induction l as [|e l IH]; simpl; [auto|]. intros [H1 H2].
    destruct (f e); simpl; auto. split; [|auto].
    rewrite Forall_forall in *. intros e' He'. apply H1. apply filter_In in He'; tauto.
  Qed.

  Lemma uniq_app_one (l : list (K * V)) e :
    uniq l -> Forall (fun e' => keq (fst e') (fst e) = false) l -> uniq (l ++ [e]).
  Proof.
    induction l as [|e1 l IH]; simpl; [auto|]. intros [H1 H2] H3.
    inversion H3 as [|? ? H4 H5]; subst. split; [|auto].
    apply Forall_app; split; [exact H1|]. constructor; [rewrite keq_sym; exact H4|constructor].
  Qed.

  Lemma uniq_sput k v (l : list (K * V)) : uniq l -> uniq (sput keq k v l).
  Proof.
    intros H. unfold sput. apply uniq_app_one; [apply uniq_filter; exact H|].
    apply sget_none_forall. apply (sget_sdelete_same k).
  Qed.

  Lemma uniq_fst (l l' : list (K * V)) : map fst l = map fst l' -> uniq l -> uniq l'.
  Proof.
    revert l'. induction l as [|e l IH]; intros [|e' l']; simpl; try discriminate; auto.
    intros H [H1 H2]. injection H as He Hl. split; [|apply IH; auto].
    rewrite Forall_forall in *. intros x Hx. rewrite <- He.
    apply (in_map fst) in Hx. rewrite <- Hl in Hx. apply in_map_iff in Hx as [y [Hy Hin]].
    rewrite <- Hy. apply H1; exact Hin.
  Qed.

  Lemma forall_fst (P : K -> Prop) (l l' : list (K * V)) :
    map fst l = map fst l' -> Forall (fun e => P (fst e)) l -> Forall (fun e => P (fst e)) l'.
  Proof.
    intros H. rewrite <- (Forall_map fst P l), <- (Forall_map fst P l'), H. auto.
  Qed.

  (** ** Every operation refines its specification *)

  Lemma inv_new : Inv new_map.
  Proof. split; simpl; auto. Qed.

  Lemma index_of_ok k m :
    Inv m -> good k ->
    index_of keq hashable k m =
    Ok (if (spos keq k (ordered m) <? 0)%Z then None else Some (Z.to_nat (spos keq k (ordered m)))).
  Proof.
    intros Hm [Hh Hr]. unfold index_of, gomap_get. rewrite Hh; simpl.
    rewrite (inv_find _ Hm). rewrite scan_spos; simpl.
    pose proof (spos_none k (ordered m)) as Hn. pose proof (spos_ge k (ordered m)) as Hge.
    destruct (sget keq k (ordered m)) as [v|].
    - destruct (Z.ltb_spec (spos keq k (ordered m)) 0) as [H|H]; [|reflexivity].
      assert (spos keq k (ordered m) = -1)%Z as E by lia.
      apply Hn in E; discriminate.
    - destruct Hn as [Hn _]. rewrite (Hn eq_refl). reflexivity.
  Qed.

  Lemma delete_ok k m :
    Inv m -> good k ->
    exists m', delete keq hashable k m = Ok m' /\ Inv m' /\
               ordered m' = sdelete keq k (ordered m) /\ outOrder m' = outOrder m.
  Proof.
    intros Hm Hk. unfold delete. rewrite (index_of_ok k m Hm Hk). cbn [bind].
    pose proof (scan_spos k (ordered m) 0) as Hs. rewrite Nat.add_0_l in Hs.
    pose proof (spos_none k (ordered m)) as Hn. pose proof (spos_ge k (ordered m)) as Hge.
    destruct (Z.ltb_spec (spos keq k (ordered m)) 0) as [H|H].
    - exists m. repeat split; auto; try apply Hm.
      symmetry; apply sdelete_none, sget_none_forall, spos_none. lia.
    - unfold gomap_delete. rewrite (proj1 Hk). cbn [bind].
      rewrite (cut_scan k (ordered m) _ 0 (inv_uniq _ Hm) Hs).
      eexists; split; [reflexivity|]. split; [|split; reflexivity].
      split; simpl.
      + apply uniq_filter; apply Hm.
      + pose proof (inv_good _ Hm) as Hg. rewrite Forall_forall in *. intros e He.
        apply Hg. apply filter_In in He; tauto.
      + apply gomap_rem_uniq; apply Hm.
      + apply gomap_rem_forall; apply Hm.
      + intros k'. rewrite gomap_rem_sdelete by apply Hm. rewrite sget_gomap.
        destruct (keq k k') eqn:E.
        * rewrite <- !(sget_congr k k' _ E), !sget_sdelete_same. reflexivity.
        * rewrite !sget_sdelete_other by exact E. rewrite <- sget_gomap. apply Hm.
  Qed.

  Lemma put_ok k v m :
    Inv m -> good k ->
    exists m', put keq hashable k v m = Ok m' /\ Inv m' /\
               ordered m' = sput keq k v (ordered m) /\ outOrder m' = outOrder m.
  Proof.
    intros Hm Hk. unfold put.
    destruct (delete_ok k m Hm Hk) as [m1 [Hd [Hm1 [Ho Hf]]]]. rewrite Hd; cbn [bind].
    unfold gomap_set. rewrite (proj1 Hk). cbn [bind].
    eexists; split; [reflexivity|]. split; [|split; simpl; [rewrite Ho; reflexivity|exact Hf]].
    split; simpl.
    - rewrite Ho. apply (uniq_sput k v). apply Hm.
    - apply Forall_app; split; [apply Hm1|]. constructor; [exact Hk|constructor].
    - apply gomap_upd_uniq; apply Hm1.
    - apply gomap_upd_keys; [exact Hk|apply Hm1].
    - intros k'. rewrite gomap_find_upd by apply Hk. rewrite (inv_find _ Hm1).
      rewrite Ho. fold (sput keq k v (ordered m)). rewrite sget_sput.
      destruct (keq k k') eqn:E; [reflexivity|]. apply sget_sdelete_other; exact E.
  Qed.

  Lemma replace_ok k v m :
    Inv m -> good k ->
    exists m', replace_if_exists keq hashable k v m = Ok m' /\ Inv m' /\
               ordered m' = sreplace keq k v (ordered m) /\ outOrder m' = outOrder m.
  Proof.
    intros Hm Hk. unfold replace_if_exists. rewrite (index_of_ok k m Hm Hk). cbn [bind].
    pose proof (scan_spos k (ordered m) 0) as Hs. rewrite Nat.add_0_l in Hs.
    pose proof (spos_none k (ordered m)) as Hn. pose proof (spos_ge k (ordered m)) as Hge.
    destruct (Z.ltb_spec (spos keq k (ordered m)) 0) as [H|H].
    - exists m. repeat split; auto; try apply Hm.
      symmetry; apply sreplace_absent, spos_none. lia.
    - unfold gomap_set. rewrite (proj1 Hk). cbn [bind].
      rewrite (set_val_scan k v (ordered m) _ 0 (inv_uniq _ Hm) Hs).
      eexists; split; [reflexivity|]. split; [|split; reflexivity].
      assert (shas keq k (ordered m) = true) as Hh.
      { rewrite shas_sget. destruct (sget keq k (ordered m)); [reflexivity|].
        destruct Hn as [Hn _]. rewrite (Hn eq_refl) in H; lia. }
      split; simpl.
      + apply uniq_fst with (ordered m); [symmetry; apply sreplace_fst|apply Hm].
      + apply forall_fst with (ordered m); [symmetry; apply sreplace_fst|apply Hm].
      + apply gomap_upd_uniq; apply Hm.
      + apply gomap_upd_keys; [exact Hk|apply Hm].
      + intros k'. rewrite gomap_find_upd by apply Hk. rewrite sget_sreplace, Hh.
        rewrite (inv_find _ Hm). reflexivity.
  Qed.

  Lemma has_ok k m : Inv m -> good k -> has keq hashable k m = Ok (shas keq k (ordered m)).
  Proof.
    intros Hm Hk. unfold has, gomap_get. rewrite (proj1 Hk); cbn [bind].
    rewrite (inv_find _ Hm), shas_sget. reflexivity.
  Qed.

  Lemma get_ok k m : Inv m -> good k -> get keq hashable k m = Ok (sget keq k (ordered m)).
  Proof.
    intros Hm Hk. unfold get, gomap_get. rewrite (proj1 Hk).
    rewrite (inv_find _ Hm). reflexivity.
  Qed.

  (** ** ForEach *)

  Lemma for_each_loop_collect (m : omap K V) todo j acc :
    todo + j = len m ->
    for_each_loop todo j collect (acc, m) = Ok (acc ++ skipn j (ordered m), m).
  Proof.
    unfold len. revert j acc. induction todo as [|todo IH]; intros j acc H.
    - simpl. rewrite skipn_all2 by lia. rewrite app_nil_r; reflexivity.
    - cbn [for_each_loop]. cbn [snd].
      destruct (nth_error (ordered m) j) as [[k v]|] eqn:E.
      + unfold collect at 1. cbn [bind fst snd]. rewrite IH by lia. f_equal. f_equal.
        rewrite <- app_assoc. f_equal. simpl.
        clear IH H acc. revert j E. induction (ordered m) as [|e l IHl]; intros j E.
        * destruct j; discriminate.
        * destruct j as [|j]; [simpl in E; injection E as ->; reflexivity|].
          simpl in E. apply IHl in E. simpl. exact E.
      + apply nth_error_None in E. lia.
  Qed.

  Lemma for_each_collect (m : omap K V) : for_each collect [] m = Ok (ordered m, m).
  Proof. unfold for_each. rewrite for_each_loop_collect by lia. reflexivity. Qed.

  (** ** One step, histories *)

  Definition keys_good (o : op K V) : Prop := Forall good (op_keys o).

  Lemma step_ok m o :
    Inv m -> keys_good o ->
    match sstep keq (ordered m) o with
    | Some (l', r) => exists m', step keq hashable m o = Ok (m', r) /\ Inv m' /\ ordered m' = l'
    | None => step keq hashable m o = Panic
    end.
  Proof.
    unfold keys_good. intros Hm Hk. destruct o as [k v|k [v|]|k v|k v|k|b|k|k|k| |j|k|];
      simpl in Hk; try (inversion Hk as [|? ? Hg _]; subst); cbn [sstep step].
    - destruct (put_ok k v m Hm Hg) as [m' [E [Hi [Ho _]]]]. rewrite E. exists m'; auto.
    - cbn [put_if_not_nil].
      destruct (put_ok k v m Hm Hg) as [m' [E [Hi [Ho _]]]]. rewrite E. exists m'; auto.
    - exists m; auto.
    - unfold replace_or_put. rewrite (has_ok k m Hm Hg). cbn [bind].
      destruct (shas keq k (ordered m)).
      + destruct (replace_ok k v m Hm Hg) as [m' [E [Hi [Ho _]]]]. rewrite E. exists m'; auto.
      + destruct (put_ok k v m Hm Hg) as [m' [E [Hi [Ho _]]]]. rewrite E. exists m'; auto.
    - destruct (replace_ok k v m Hm Hg) as [m' [E [Hi [Ho _]]]]. rewrite E. exists m'; auto.
    - destruct (delete_ok k m Hm Hg) as [m' [E [Hi [Ho _]]]]. rewrite E. exists m'; auto.
    - exists (serialize_ordered b m). split; [reflexivity|]. split; [|reflexivity].
      split; simpl; apply Hm.
    - rewrite (get_ok k m Hm Hg). exists m; auto.
    - rewrite (get_ok k m Hm Hg). exists m; auto.
    - rewrite (has_ok k m Hm Hg). exists m; auto.
    - exists m; auto.
    - unfold sat, at_. destruct (j <? 0)%Z; [reflexivity|].
      destruct (nth_error (ordered m) (Z.to_nat j)); [exists m; auto|reflexivity].
    - rewrite (index_of_ok k m Hm Hg). cbn [ask bind]. exists m. split; [|auto].
      pose proof (spos_ge k (ordered m)) as Hge.
      destruct (Z.ltb_spec (spos keq k (ordered m)) 0) as [H|H].
      + replace (spos keq k (ordered m)) with (-1)%Z by lia. reflexivity.
      + rewrite Z2Nat.id by lia. reflexivity.
    - rewrite for_each_collect. cbn [bind fst snd]. exists m; auto.
  Qed.

  Lemma run_refines_from m ops :
    Inv m -> Forall keys_good ops ->
    run keq hashable m ops = srun keq (ordered m) ops.
  Proof.
    intros Hm Hops. revert m Hm. induction Hops as [|o ops Ho Hops IH]; intros m Hm; [reflexivity|].
    simpl. pose proof (step_ok m o Hm Ho) as H.
    destruct (sstep keq (ordered m) o) as [[l' r]|].
    - destruct H as [m' [E [Hi Hl]]]. rewrite E. rewrite <- Hl. rewrite IH by exact Hi. reflexivity.
    - rewrite H. reflexivity.
  Qed.

  Lemma run_refines ops :
    Forall keys_good ops -> run keq hashable new_map ops = srun keq [] ops.
  Proof. intros H. apply (run_refines_from new_map ops inv_new H). Qed.

  Lemma exec_inv m ops m' :
    Inv m -> Forall keys_good ops -> exec keq hashable m ops = Ok m' ->
    Inv m' /\ ordered m' = sexec keq (ordered m) ops.
  Proof.
    intros Hm Hops. revert m Hm. induction Hops as [|o ops Ho Hops IH]; intros m Hm; simpl.
    - intros H; injection H as <-; auto.
    - pose proof (step_ok m o Hm Ho) as H.
      destruct (sstep keq (ordered m) o) as [[l' r]|].
      + destruct H as [m1 [E [Hi Hl]]]. rewrite E. cbn [bind fst]. intros He.
        rewrite <- Hl. apply IH; assumption.
      + rewrite H; discriminate.
  Qed.

  (** a map reachable from a fresh one *)
  Definition reachable (m : omap K V) : Prop :=
    exists ops, Forall keys_good ops /\ exec keq hashable new_map ops = Ok m.

  Lemma reachable_inv m : reachable m -> Inv m.
  Proof. intros [ops [H E]]. apply (exec_inv new_map ops m inv_new H E). Qed.

  Lemma step_inv m o m' r :
    Inv m -> keys_good o -> step keq hashable m o = Ok (m', r) -> Inv m'.
  Proof.
    intros Hm Ho H. pose proof (step_ok m o Hm Ho) as Hs.
    destruct (sstep keq (ordered m) o) as [[l' r']|].
    - destruct Hs as [m1 [E [Hi _]]]. congruence.
    - congruence.
  Qed.

  (** ** Laws of the specification, on lists without repeated keys *)

  Lemma spos_nth k (l : list (K * V)) p :
    spos keq k l = Z.of_nat p ->
    exists e, nth_error l p = Some e /\ keq (fst e) k = true.
  Proof.
    revert p. induction l as [|e l IH]; intros p; cbn [spos]; [lia|].
    destruct (keq (fst e) k) eqn:E.
    - intros H. assert (p = 0) as -> by lia. exists e; auto.
    - destruct (Z.ltb_spec (spos keq k l) 0) as [H|H]; [lia|]. intros Hp.
      destruct p as [|p]; [lia|]. apply (IH p). lia.
  Qed.

  Lemma nth_spos k (l : list (K * V)) p e :
    uniq l -> nth_error l p = Some e -> keq (fst e) k = true -> spos keq k l = Z.of_nat p.
  Proof.
    revert p. induction l as [|e1 l IH]; intros p; [destruct p; discriminate|].
    intros [H1 H2] Hn Hk. destruct p as [|p]; cbn [spos nth_error] in *.
    - injection Hn as ->. rewrite Hk. reflexivity.
    - assert (keq (fst e1) k = false) as E.
      { destruct (keq (fst e1) k) eqn:E; [|reflexivity].
        rewrite Forall_forall in H1. apply nth_error_In in Hn. specialize (H1 e Hn).
        rewrite keq_sym in E. rewrite (keq_trans _ _ _ Hk E) in H1; discriminate. }
      rewrite E. rewrite (IH p H2 Hn Hk).
      destruct (Z.ltb_spec (Z.of_nat p) 0); lia.
  Qed.

  Lemma uniq_positions (l : list (K * V)) i j e1 e2 :
    uniq l -> nth_error l i = Some e1 -> nth_error l j = Some e2 ->
    keq (fst e1) (fst e2) = true -> keq (fst e2) (fst e2) = true -> i = j.
  Proof.
    intros Hu H1 H2 He Hr.
    pose proof (nth_spos (fst e2) l i e1 Hu H1 He) as P1.
    pose proof (nth_spos (fst e2) l j e2 Hu H2 Hr) as P2. lia.
  Qed.

  Lemma shas_nth k (l : list (K * V)) :
    shas keq k l = true <-> exists p e, nth_error l p = Some e /\ keq (fst e) k = true.
  Proof.
    unfold shas. rewrite existsb_exists. split.
    - intros [e [Hin He]]. apply In_nth_error in Hin as [p Hp]. exists p, e; auto.
    - intros [p [e [Hp He]]]. exists e; split; [apply nth_error_In with p; exact Hp|exact He].
  Qed.

  Lemma sdelete_length k (l : list (K * V)) :
    uniq l ->
    List.length l = List.length (sdelete keq k l) + (if shas keq k l then 1 else 0).
  Proof.
    unfold sdelete. induction l as [|e l IH]; simpl; [reflexivity|].
    intros [H1 H2]. unfold other at 1. destruct (keq (fst e) k) eqn:E; simpl.
    - fold (sdelete keq k l). rewrite (sdelete_none k l); [lia|].
      apply Forall_impl with (2 := H1). simpl. intros e' He'.
      apply keq_false_trans with (fst e); [rewrite keq_sym; exact E|exact He'].
    - rewrite (IH H2). lia.
  Qed.

End Proofs.

Arguments uniq {K V}.
Arguments Inv {K V}.
Arguments reachable {K V}.
Arguments keys_good {K V}.
Arguments good {K}.
