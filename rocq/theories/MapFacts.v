(** Facts about the string-keyed ordered maps (20 of the 21 generated maps), stated on the
    operations of OMap.v and proved through the refinement of OMapProofs.v. *)
From Verif Require Import Base OMap OMapSpec OMapProofs.

(** Go strings: [==] is equality of the characters, and every string is hashable. *)
Definition any_hash {K : Type} (_ : K) : bool := true.

Notation sm_new := (@new_map string _).
Notation sm_put := (put String.eqb any_hash).
Notation sm_put_if_not_nil := (put_if_not_nil String.eqb any_hash).
Notation sm_replace_or_put := (replace_or_put String.eqb any_hash).
Notation sm_replace_if_exists := (replace_if_exists String.eqb any_hash).
Notation sm_delete := (delete String.eqb any_hash).
Notation sm_get := (get String.eqb any_hash).
Notation sm_has := (has String.eqb any_hash).
Notation sm_index_of := (index_of String.eqb any_hash).
Notation sm_step := (step String.eqb any_hash).
Notation sm_run := (run String.eqb any_hash).
Notation sm_exec := (exec String.eqb any_hash).

(** A state some history of operations leads to. *)
Definition sm_reachable {V} (m : omap string V) : Prop :=
  exists ops, sm_exec new_map ops = Ok m.

(** What ForEach enumerates. *)
Definition entries {K V} (m : omap K V) : list (K * V) :=
  match for_each collect [] m with Ok s => fst s | _ => [] end.

Lemma entries_ordered {K V} (m : omap K V) : entries m = ordered m.
Proof. unfold entries. rewrite for_each_collect. reflexivity. Qed.

Section StringMaps.
  Variable V : Type.

  Lemma seq_sym a b : String.eqb a b = String.eqb b a.
  Proof. apply String.eqb_sym. Qed.

  Lemma seq_trans a b c : String.eqb a b = true -> String.eqb b c = true -> String.eqb a c = true.
  Proof. rewrite !String.eqb_eq. congruence. Qed.

  Lemma sgood k : good String.eqb any_hash k.
  Proof. split; [reflexivity|apply String.eqb_refl]. Qed.

  Lemma skeys_good (o : op string V) : keys_good String.eqb any_hash o.
  Proof. unfold keys_good. apply Forall_forall. intros k _. apply sgood. Qed.

  Lemma skeys_goods (ops : list (op string V)) : Forall (keys_good String.eqb any_hash) ops.
  Proof. apply Forall_forall. intros o _. apply skeys_good. Qed.

  Notation SInv := (Inv String.eqb any_hash (V := V)).

  Lemma sm_inv m : sm_reachable m -> SInv m.
  Proof.
    intros [ops H].
    apply (exec_inv string V String.eqb any_hash seq_sym seq_trans new_map ops m); auto.
    - apply inv_new.
    - apply skeys_goods.
  Qed.

  Lemma exec_app (m : omap string V) ops1 ops2 :
    sm_exec m (ops1 ++ ops2) = do m' <- sm_exec m ops1; sm_exec m' ops2.
  Proof.
    revert m. induction ops1 as [|o ops1 IH]; intros m; simpl; [reflexivity|].
    destruct (sm_step m o) as [[m' r]| |]; simpl; auto.
  Qed.

  Lemma sm_reach_step (m : omap string V) o m' r :
    sm_reachable m -> sm_step m o = Ok (m', r) -> sm_reachable m'.
  Proof.
    intros [ops H] E. exists (ops ++ [o]). rewrite exec_app, H. simpl. rewrite E. reflexivity.
  Qed.

  (** C01 *)
  Lemma sm_refines (ops : list (op string V)) : sm_run new_map ops = srun String.eqb [] ops.
  Proof.
    apply run_refines; [exact seq_sym|exact seq_trans|apply skeys_goods].
  Qed.

  (** C02 *)
  Lemma at_nth (j : Z) (m : omap string V) e :
    at_ j m = Ok e <-> (0 <= j)%Z /\ nth_error (ordered m) (Z.to_nat j) = Some e.
  Proof.
    unfold at_. destruct (Z.ltb_spec j 0) as [H|H].
    - split; [discriminate|lia].
    - destruct (nth_error (ordered m) (Z.to_nat j)); split.
      + intros E; injection E as ->; auto.
      + intros [_ E]; injection E as ->; auto.
      + discriminate.
      + intros [_ E]; discriminate.
  Qed.

  Lemma at_nat (j : nat) (m : omap string V) e :
    at_ (Z.of_nat j) m = Ok e <-> nth_error (ordered m) j = Some e.
  Proof. rewrite at_nth, Nat2Z.id. intuition lia. Qed.

  Lemma sm_has_shas (m : omap string V) k : SInv m -> sm_has k m = Ok (shas String.eqb k (ordered m)).
  Proof. intros H. apply has_ok; [exact H|apply sgood]. Qed.

  Lemma sm_get_sget (m : omap string V) k : SInv m -> sm_get k m = Ok (sget String.eqb k (ordered m)).
  Proof. intros H. apply get_ok; [exact H|apply sgood]. Qed.

  Lemma sm_unique (m : omap string V) : sm_reachable m ->
    forall i j k v w, at_ i m = Ok (k, v) -> at_ j m = Ok (k, w) -> i = j.
  Proof.
    intros H i j k v w Hi Hj. apply sm_inv in H.
    apply at_nth in Hi as [Hi Ei]. apply at_nth in Hj as [Hj Ej].
    assert (Z.to_nat i = Z.to_nat j) as E; [|lia].
    apply (uniq_positions string V String.eqb seq_sym seq_trans (ordered m) _ _ _ _
             (inv_uniq _ _ _ _ _ H) Ei Ej); simpl; apply String.eqb_refl.
  Qed.

  Lemma sm_has_iff (m : omap string V) k : sm_reachable m ->
    (sm_has k m = Ok true <-> exists j v, at_ j m = Ok (k, v)).
  Proof.
    intros H. apply sm_inv in H. rewrite (sm_has_shas m k H). split.
    - intros E. injection E as E.
      apply shas_nth in E; try exact seq_sym; try exact seq_trans.
      destruct E as [p [[k' v] [Hp Hk]]]. apply String.eqb_eq in Hk. simpl in Hk. subst k'.
      exists (Z.of_nat p), v. apply at_nat. exact Hp.
    - intros [j [v E]]. apply at_nth in E as [_ E]. f_equal.
      apply shas_nth; try exact seq_sym; try exact seq_trans.
      exists (Z.to_nat j), (k, v). split; [exact E|apply String.eqb_refl].
  Qed.

  Lemma sm_index_of_iff (m : omap string V) k j : sm_reachable m ->
    (sm_index_of k m = Ok (Some j) <-> exists v, at_ (Z.of_nat j) m = Ok (k, v)).
  Proof.
    intros H. apply sm_inv in H.
    rewrite (index_of_ok string V String.eqb any_hash k m H (sgood k)).
    pose proof (spos_ge string V String.eqb k (ordered m)) as Hge.
    split.
    - destruct (Z.ltb_spec (spos String.eqb k (ordered m)) 0) as [L|L]; [discriminate|].
      intros E. injection E as E.
      destruct (spos_nth string V String.eqb k (ordered m) j) as [[k' v] [Hn Hk]];
        [lia|]. apply String.eqb_eq in Hk. simpl in Hk. subst k'. exists v. apply at_nat. exact Hn.
    - intros [v E]. apply at_nat in E.
      rewrite (nth_spos string V String.eqb seq_sym seq_trans k (ordered m) j (k, v)
                 (inv_uniq _ _ _ _ _ H) E (String.eqb_refl k)).
      destruct (Z.ltb_spec (Z.of_nat j) 0); [lia|]. rewrite Nat2Z.id. reflexivity.
  Qed.

  Lemma sm_index_of_none (m : omap string V) k : sm_reachable m ->
    (sm_index_of k m = Ok None <-> sm_has k m = Ok false).
  Proof.
    intros H. apply sm_inv in H. rewrite (sm_has_shas m k H).
    rewrite (index_of_ok string V String.eqb any_hash k m H (sgood k)).
    rewrite shas_sget; try exact seq_sym; try exact seq_trans.
    pose proof (spos_none string V String.eqb k (ordered m)) as Hn.
    pose proof (spos_ge string V String.eqb k (ordered m)) as Hge.
    destruct (sget String.eqb k (ordered m)) as [v|].
    - destruct (Z.ltb_spec (spos String.eqb k (ordered m)) 0) as [L|L].
      + assert (spos String.eqb k (ordered m) = -1)%Z as E by lia. apply Hn in E; discriminate.
      + split; discriminate.
    - destruct Hn as [Hn _]. rewrite (Hn eq_refl). simpl. split; reflexivity.
  Qed.

  Lemma uniq_nodup (l : list (string * V)) : uniq String.eqb l -> NoDup (map fst l).
  Proof.
    induction l as [|e l IH]; simpl; [constructor|]. intros [H1 H2].
    constructor; [|auto]. intros Hin. apply in_map_iff in Hin as [e' [E Hin]].
    rewrite Forall_forall in H1. specialize (H1 e' Hin). rewrite E, String.eqb_refl in H1.
    discriminate.
  Qed.

  Lemma nodup_uniq (l : list (string * V)) : NoDup (map fst l) -> uniq String.eqb l.
  Proof.
    induction l as [|e l IH]; simpl; [auto|]. intros H. inversion H as [|? ? H1 H2]; subst.
    split; [|auto]. apply Forall_forall. intros e' Hin.
    apply String.eqb_neq. intros E. apply H1. rewrite <- E. apply in_map; exact Hin.
  Qed.

  Lemma sm_len_keys (m : omap string V) : sm_reachable m ->
    exists ks, NoDup ks /\ List.length ks = len m /\ forall k, sm_has k m = Ok true <-> In k ks.
  Proof.
    intros H. pose proof (sm_inv m H) as Hi. exists (map fst (ordered m)).
    split; [apply uniq_nodup; apply Hi|]. split; [unfold len; apply map_length|].
    intros k. rewrite (sm_has_iff m k H). split.
    - intros [j [v E]]. apply at_nth in E as [_ E]. apply nth_error_In in E.
      apply (in_map fst) in E. exact E.
    - intros Hin. apply in_map_iff in Hin as [[k' v] [E Hin]]. simpl in E; subst k'.
      apply In_nth_error in Hin as [p Hp]. exists (Z.of_nat p), v. apply at_nat. exact Hp.
  Qed.

  (** C03 *)
  Definition not_key (k : string) (e : string * V) : bool := negb (String.eqb (fst e) k).

  Lemma filter_sput k v (l : list (string * V)) :
    filter (not_key k) (sput String.eqb k v l) = filter (not_key k) l.
  Proof.
    unfold sput, sdelete. rewrite filter_app. simpl. unfold not_key at 2; simpl.
    rewrite String.eqb_refl; simpl. rewrite app_nil_r.
    change (other String.eqb k) with (not_key k).
    induction l as [|e l IH]; simpl; [reflexivity|].
    destruct (not_key k e) eqn:E; simpl; [rewrite E, IH; reflexivity|exact IH].
  Qed.

  Lemma sm_put_spec (m : omap string V) k v : sm_reachable m ->
    exists m', sm_put k v m = Ok m' /\
      entries m' = filter (not_key k) (entries m) ++ [(k, v)] /\
      sm_get k m' = Ok (Some v) /\
      at_ (Z.of_nat (len m') - 1) m' = Ok (k, v) /\
      (forall k', k' <> k -> sm_get k' m' = sm_get k' m) /\
      filter (not_key k) (entries m') = filter (not_key k) (entries m) /\
      (sm_has k m = Ok true -> len m' = len m) /\
      (sm_has k m = Ok false -> len m' = S (len m)) /\
      outOrder m' = outOrder m.
  Proof.
    intros H. apply sm_inv in H.
    destruct (put_ok string V String.eqb any_hash seq_sym seq_trans k v m H (sgood k))
      as [m' [E [Hi [Ho Hf]]]].
    exists m'. split; [exact E|]. rewrite !entries_ordered.
    pose proof (sdelete_length string V String.eqb seq_sym seq_trans k (ordered m)
                  (inv_uniq _ _ _ _ _ H)) as Hl.
    rewrite !sm_get_sget by assumption. rewrite !sm_has_shas by assumption.
    unfold len. rewrite Ho. repeat split.
    - f_equal. rewrite sget_sput; try exact seq_sym; try exact seq_trans.
      rewrite String.eqb_refl. reflexivity.
    - apply at_nth. unfold sput in *. rewrite app_length. simpl. split; [lia|].
      rewrite Ho. replace (Z.to_nat _) with (List.length (sdelete String.eqb k (ordered m))) by lia.
      unfold sput. rewrite nth_error_app2 by lia. rewrite Nat.sub_diag. reflexivity.
    - intros k' Hk. rewrite !sm_get_sget by assumption. f_equal. rewrite Ho.
      rewrite sget_sput; try exact seq_sym; try exact seq_trans.
      destruct (String.eqb_spec k k'); congruence.
    - apply filter_sput.
    - intros Eh. injection Eh as Eh. rewrite Eh in Hl. unfold sput. rewrite app_length. simpl. lia.
    - intros Eh. injection Eh as Eh. rewrite Eh in Hl. unfold sput. rewrite app_length. simpl. lia.
    - exact Hf.
  Qed.

  (** C04 *)
  Lemma sm_replace_present (m : omap string V) k v : sm_reachable m -> sm_has k m = Ok true ->
    exists m', sm_replace_if_exists k v m = Ok m' /\
      sm_get k m' = Ok (Some v) /\
      len m' = len m /\
      (forall k', sm_index_of k' m' = sm_index_of k' m) /\
      (forall k', k' <> k -> sm_get k' m' = sm_get k' m) /\
      (forall j e, at_ j m = Ok e ->
         at_ j m' = Ok (if String.eqb (fst e) k then (fst e, v) else e)) /\
      outOrder m' = outOrder m.
  Proof.
    intros Hr Hh. pose proof (sm_inv m Hr) as H.
    destruct (replace_ok string V String.eqb any_hash seq_sym seq_trans k v m H (sgood k))
      as [m' [E [Hi [Ho Hf]]]].
    exists m'. split; [exact E|]. rewrite sm_has_shas in Hh by assumption. injection Hh as Hh.
    split; [|split; [|split; [|split; [|split]]]].
    - rewrite sm_get_sget by assumption. rewrite Ho.
      rewrite sget_sreplace; try exact seq_sym; try exact seq_trans.
      rewrite String.eqb_refl, Hh. reflexivity.
    - unfold len. rewrite Ho. unfold sreplace. apply map_length.
    - intros k'.
      rewrite (index_of_ok string V String.eqb any_hash k' m' Hi (sgood k')).
      rewrite (index_of_ok string V String.eqb any_hash k' m H (sgood k')).
      rewrite Ho. assert (spos String.eqb k' (sreplace String.eqb k v (ordered m))
                          = spos String.eqb k' (ordered m)) as ->; [|reflexivity].
      clear. induction (ordered m) as [|e l IH]; [reflexivity|].
      cbn [sreplace map spos]. replace (fst (if String.eqb (fst e) k then (fst e, v) else e)) with (fst e).
      + unfold sreplace in IH. rewrite IH. reflexivity.
      + destruct (String.eqb (fst e) k); reflexivity.
    - intros k' Hk. rewrite !sm_get_sget by assumption. rewrite Ho.
      rewrite sget_sreplace; try exact seq_sym; try exact seq_trans.
      destruct (String.eqb_spec k k'); [congruence|reflexivity].
    - intros j e He. apply at_nth in He as [Hj He]. apply at_nth. split; [exact Hj|].
      rewrite Ho. unfold sreplace. rewrite nth_error_map, He. reflexivity.
    - exact Hf.
  Qed.

  Lemma sm_replace_absent (m : omap string V) k v : sm_reachable m -> sm_has k m = Ok false ->
    sm_replace_if_exists k v m = Ok m.
  Proof.
    intros Hr Hh. apply (proj2 (sm_index_of_none m k Hr)) in Hh.
    unfold replace_if_exists. rewrite Hh. reflexivity.
  Qed.

  Lemma sm_replace_or_put_spec (m : omap string V) k v : sm_reachable m ->
    (sm_has k m = Ok true -> sm_replace_or_put k v m = sm_replace_if_exists k v m) /\
    (sm_has k m = Ok false -> sm_replace_or_put k v m = sm_put k v m) /\
    (sm_has k m = Ok true \/ sm_has k m = Ok false).
  Proof.
    intros Hr. unfold replace_or_put. rewrite (sm_has_shas m k (sm_inv m Hr)).
    split; [|split].
    - intros E; rewrite E; reflexivity.
    - intros E; rewrite E; reflexivity.
    - destruct (shas String.eqb k (ordered m)); auto.
  Qed.

  (** C05 *)
  Lemma filter_none (f : string * V -> bool) l : (forall e, In e l -> f e = true) -> filter f l = l.
  Proof.
    induction l as [|e l IH]; intros H; simpl; [reflexivity|].
    rewrite (H e (or_introl eq_refl)). rewrite IH; [reflexivity|].
    intros e' He'; apply H; right; exact He'.
  Qed.

  Lemma sm_delete_spec (m : omap string V) k : sm_reachable m ->
    exists m', sm_delete k m = Ok m' /\
      entries m' = filter (not_key k) (entries m) /\
      sm_has k m' = Ok false /\
      (forall k', k' <> k -> sm_get k' m' = sm_get k' m) /\
      (sm_has k m = Ok false -> m' = m) /\
      (sm_has k m = Ok true -> S (len m') = len m) /\
      sm_delete k m' = Ok m' /\
      outOrder m' = outOrder m.
  Proof.
    intros Hr. pose proof (sm_inv m Hr) as H.
    destruct (delete_ok string V String.eqb any_hash seq_sym seq_trans k m H (sgood k))
      as [m' [E [Hi [Ho Hf]]]].
    exists m'. split; [exact E|]. rewrite !entries_ordered.
    assert (sm_reachable m') as Hr'.
    { apply (sm_reach_step m (ODelete k) m' RNone Hr). cbn [step]. rewrite E. reflexivity. }
    assert (sm_has k m' = Ok false) as Hn.
    { rewrite sm_has_shas by assumption. rewrite Ho. rewrite shas_sget; try exact seq_sym; try exact seq_trans.
      rewrite sget_sdelete_same; try exact seq_sym; try exact seq_trans. reflexivity. }
    split; [exact Ho|]. split; [exact Hn|]. split; [|split; [|split; [|split]]].
    - intros k' Hk. rewrite !sm_get_sget by assumption. rewrite Ho. f_equal.
      apply sget_sdelete_other; try exact seq_sym; try exact seq_trans.
      apply String.eqb_neq. congruence.
    - intros Hh. apply (proj2 (sm_index_of_none m k Hr)) in Hh.
      unfold delete in E. rewrite Hh in E. simpl in E. congruence.
    - intros Hh. rewrite sm_has_shas in Hh by assumption. injection Hh as Hh.
      pose proof (sdelete_length string V String.eqb seq_sym seq_trans k (ordered m)
                    (inv_uniq _ _ _ _ _ H)) as Hl.
      rewrite Hh in Hl. unfold len. rewrite Ho. lia.
    - apply (proj2 (sm_index_of_none m' k Hr')) in Hn.
      unfold delete. rewrite Hn. reflexivity.
    - exact Hf.
  Qed.

  (** C06 *)
  Lemma sm_step_panic (m : omap string V) o : sm_reachable m ->
    (sm_step m o = Panic <-> exists j, o = OAt j /\ (j < 0 \/ Z.of_nat (len m) <= j)%Z) /\
    sm_step m o <> Err.
  Proof.
    intros Hr. pose proof (sm_inv m Hr) as H.
    pose proof (step_ok string V String.eqb any_hash seq_sym seq_trans m o H (skeys_good o)) as Hs.
    assert ((sstep String.eqb (ordered m) o = None <->
             exists j, o = OAt j /\ (j < 0 \/ Z.of_nat (len m) <= j)%Z)) as Hn.
    { destruct o as [k v|k [v|]|k v|k v|k|b|k|k|k| |j|k|]; cbn [sstep];
        try (split; [discriminate|intros [j' [E _]]; discriminate]).
      unfold sat, len. destruct (Z.ltb_spec j 0) as [L|L].
      - split; [|reflexivity]. intros _. exists j. auto.
      - destruct (nth_error (ordered m) (Z.to_nat j)) eqn:E.
        + split; [discriminate|]. intros [j' [Ej HJ]]. injection Ej as <-.
          assert (nth_error (ordered m) (Z.to_nat j) <> None) as Hx by congruence.
          apply nth_error_Some in Hx. lia.
        + split; [|reflexivity]. intros _. exists j. split; [reflexivity|].
          apply nth_error_None in E. lia. }
    destruct (sstep String.eqb (ordered m) o) as [[l' r]|].
    - destruct Hs as [m' [E _]]. rewrite E. split; [|discriminate].
      rewrite <- Hn. split; discriminate.
    - rewrite Hs. split; [|discriminate]. split; [|reflexivity]. intros _. apply Hn. reflexivity.
  Qed.

  (** C07 *)
  Lemma sm_put_nil (m : omap string V) k : sm_put_if_not_nil k None m = Ok m.
  Proof. reflexivity. Qed.

  Lemma sm_put_some (m : omap string V) k v : sm_put_if_not_nil k (Some v) m = sm_put k v m.
  Proof. reflexivity. Qed.

  (** C08 *)
  Lemma for_each_pure_loop {S} (g : S -> string -> V -> S) (m : omap string V) todo j s :
    todo + j = len m ->
    for_each_loop todo j (fun k v st => Ok (g (fst st) k v, snd st)) (s, m)
    = Ok (fold_left (fun s e => g s (fst e) (snd e)) (skipn j (ordered m)) s, m).
  Proof.
    unfold len. revert j s. induction todo as [|todo IH]; intros j s H.
    - simpl. rewrite skipn_all2 by lia. reflexivity.
    - cbn [for_each_loop]. cbn [snd].
      destruct (nth_error (ordered m) j) as [[k v]|] eqn:E.
      + cbn [bind fst snd]. rewrite IH by lia. f_equal. f_equal.
        assert (skipn j (ordered m) = (k, v) :: skipn (Datatypes.S j) (ordered m)) as ->; [|reflexivity].
        clear IH H. revert j E. induction (ordered m) as [|e l IHl]; intros j E.
        * destruct j; discriminate.
        * destruct j as [|j]; [simpl in E; injection E as ->; reflexivity|].
          simpl in E. apply IHl in E. simpl. exact E.
      + apply nth_error_None in E. lia.
  Qed.

  Lemma for_each_pure {S} (g : S -> string -> V -> S) (m : omap string V) s :
    for_each (fun k v st => Ok (g (fst st) k v, snd st)) s m
    = Ok (fold_left (fun s e => g s (fst e) (snd e)) (ordered m) s, m).
  Proof. unfold for_each. rewrite for_each_pure_loop by lia. reflexivity. Qed.

  Lemma map_res_at (m : omap string V) n j :
    j + n = len m ->
    map_res (fun i => at_ (Z.of_nat i) m) (seq j n) = Ok (skipn j (ordered m)).
  Proof.
    unfold len. revert j. induction n as [|n IH]; intros j H; simpl.
    - rewrite skipn_all2 by lia. reflexivity.
    - destruct (nth_error (ordered m) j) as [e|] eqn:E.
      + rewrite (proj2 (at_nat j m e) E). cbn [bind]. rewrite IH by lia. cbn [bind]. f_equal.
        clear IH H. revert j E. induction (ordered m) as [|e' l IHl]; intros j E.
        * destruct j; discriminate.
        * destruct j as [|j]; [simpl in E; injection E as ->; reflexivity|].
          simpl in E. apply IHl in E. simpl. exact E.
      + apply nth_error_None in E. lia.
  Qed.

  Lemma entries_at (m : omap string V) :
    map_res (fun i => at_ (Z.of_nat i) m) (seq 0 (len m)) = Ok (entries m).
  Proof. rewrite map_res_at by lia. rewrite entries_ordered. reflexivity. Qed.

  (** C09 *)

  (** A callback that records the entry it is given and then performs operations on the map. *)
  Definition edit_cb (acts : string -> V -> list (op string V)) (k : string) (v : V)
             (s : list (string * V) * omap string V) : res (list (string * V) * omap string V) :=
    do m' <- sm_exec (snd s) (acts k v); Ok (fst s ++ [(k, v)], m').

  Definition keeps (o : op string V) : bool :=
    match o with
    | OReplaceOrPut _ _ | OReplaceIfExists _ _ | OPutIfNotNil _ None | OGet _ | OGetOpt _ | OHas _
    | OLen | OIndexOf _ | OForEach | OSerializeOrdered _ => true
    | OPut _ _ | OPutIfNotNil _ (Some _) | ODelete _ | OAt _ => false
    end.

  Definition is_prefix (a b : list string) : Prop := exists c, b = a ++ c.

  Lemma keeps_step m o : SInv m -> keeps o = true ->
    exists m' r, sm_step m o = Ok (m', r) /\ SInv m' /\
               is_prefix (map fst (ordered m)) (map fst (ordered m')).
  Proof.
    intros Hm Hk.
    pose proof (step_ok string V String.eqb any_hash seq_sym seq_trans m o Hm (skeys_good o)) as Hs.
    assert (forall l : list string, is_prefix l l) as Hrefl.
    { intros l; exists []; rewrite app_nil_r; reflexivity. }
    destruct o as [k v|k [v|]|k v|k v|k|b|k|k|k| |j|k|]; try discriminate; cbn [sstep] in Hs;
      destruct Hs as [m' [E [Hi Ho]]]; eexists m', _; (split; [exact E|split; [exact Hi|]]); rewrite Ho;
        try apply Hrefl.
    - destruct (shas String.eqb k (ordered m)) eqn:Eh.
      + rewrite sreplace_fst. apply Hrefl.
      + unfold sput. rewrite sdelete_none.
        * rewrite map_app. exists [k]. reflexivity.
        * apply sget_none_forall; try exact seq_sym; try exact seq_trans.
          rewrite shas_sget in Eh; try exact seq_sym; try exact seq_trans.
          destruct (sget String.eqb k (ordered m)); [discriminate|reflexivity].
    - rewrite sreplace_fst. apply Hrefl.
  Qed.

  Lemma keeps_exec ops m : SInv m -> forallb keeps ops = true ->
    exists m', sm_exec m ops = Ok m' /\ SInv m' /\
               is_prefix (map fst (ordered m)) (map fst (ordered m')).
  Proof.
    revert m. induction ops as [|o ops IH]; intros m Hm Hk; simpl in *.
    - exists m. repeat split; try apply Hm. exists []; rewrite app_nil_r; reflexivity.
    - apply andb_true_iff in Hk as [H1 H2].
      destruct (keeps_step m o Hm H1) as [m1 [r [E [Hi [c Hc]]]]]. rewrite E. cbn [bind fst].
      destruct (IH m1 Hi H2) as [m2 [E2 [Hi2 [c2 Hc2]]]]. exists m2. split; [exact E2|]. split; [exact Hi2|].
      exists (c ++ c2). rewrite Hc2, Hc, app_assoc. reflexivity.
  Qed.

  Lemma for_each_edit_loop acts m todo j acc :
    SInv m -> todo + j <= len m ->
    (forall k v, forallb keeps (acts k v) = true) ->
    exists m' vis, for_each_loop todo j (edit_cb acts) (acc, m) = Ok (acc ++ vis, m') /\
               SInv m' /\ map fst vis = firstn todo (skipn j (map fst (ordered m))).
  Proof.
    intros Hm Hle Hacts. revert j m acc Hm Hle.
    induction todo as [|todo IH]; intros j m acc Hm Hle.
    - exists m, []. simpl. rewrite app_nil_r. auto.
    - cbn [for_each_loop snd]. unfold len in Hle.
      destruct (nth_error (ordered m) j) as [[k v]|] eqn:E.
      + unfold edit_cb at 1. cbn [snd fst].
        destruct (keeps_exec (acts k v) m Hm (Hacts k v)) as [m1 [E1 [Hi1 [c Hc]]]].
        rewrite E1. cbn [bind].
        assert (todo + S j <= len m1) as Hle1.
        { unfold len. pose proof (f_equal (@List.length string) Hc) as Hlen.
          rewrite app_length, !map_length in Hlen. lia. }
        destruct (IH (S j) m1 (acc ++ [(k, v)]) Hi1 Hle1) as [m2 [vis [E2 [Hi2 Hv]]]].
        exists m2, ((k, v) :: vis). rewrite E2. split; [rewrite <- app_assoc; reflexivity|].
        split; [exact Hi2|]. simpl. rewrite Hv, Hc.
        assert (List.length (map fst (ordered m)) = List.length (ordered m)) as HL by apply map_length.
        assert (nth_error (map fst (ordered m)) j = Some k) as En
          by (rewrite nth_error_map, E; reflexivity).
        rewrite skipn_app, firstn_app.
        replace (todo - List.length (skipn (S j) (map fst (ordered m)))) with 0
          by (rewrite skipn_length; lia).
        rewrite firstn_O, app_nil_r.
        generalize (map fst (ordered m)) En. clear. intros l. revert j.
        induction l as [|x l IHl]; intros j En; [destruct j; discriminate|].
        destruct j as [|j]; simpl in En.
        * injection En as ->. reflexivity.
        * simpl. apply IHl in En. simpl in En. exact En.
      + apply nth_error_None in E. lia.
  Qed.

  Lemma for_each_edit acts (m : omap string V) :
    sm_reachable m -> (forall k v, forallb keeps (acts k v) = true) ->
    exists m' visited, for_each (edit_cb acts) [] m = Ok (visited, m') /\
                   map fst visited = map fst (entries m).
  Proof.
    intros Hr Hacts. unfold for_each.
    destruct (for_each_edit_loop acts m (len m) 0 [] (sm_inv m Hr) ltac:(lia) Hacts)
      as [m' [vis [E [_ Hv]]]].
    exists m', vis. split; [exact E|]. rewrite Hv, entries_ordered. simpl.
    unfold len. rewrite <- (map_length fst). apply firstn_all.
  Qed.

End StringMaps.

(** C08, in terms of At *)
Lemma for_each_at (V S : Type) (g : S -> string -> V -> S) (m : omap string V) (s : S) :
  exists es, map_res (fun i => at_ (Z.of_nat i) m) (seq 0 (len m)) = Ok es /\
    List.length es = len m /\
    for_each (fun k v st => Ok (g (fst st) k v, snd st)) s m
    = Ok (fold_left (fun s e => g s (fst e) (snd e)) es s, m).
Proof.
  exists (entries m). split; [apply entries_at|]. split; [rewrite entries_ordered; reflexivity|].
  rewrite for_each_pure, entries_ordered. reflexivity.
Qed.

(** C09 *)
Lemma for_each_edit_counterexample :
  exists (m : omap string nat) (acts acts' : string -> nat -> list (op string nat)) visited m',
    sm_reachable m /\
    acts = (fun k _ => [ODelete k]) /\
    for_each (edit_cb nat acts) [] m = Panic /\
    acts' = (fun k v => [OPut k v]) /\
    for_each (edit_cb nat acts') [] m = Ok (visited, m') /\
    sm_get "b" m = sm_get "b" m' /\ sm_has "b" m' = Ok true /\ ~ In "b" (map fst visited).
Proof.
  exists (match sm_exec new_map [OPut "a" 1; OPut "b" 2] with Ok m => m | _ => new_map end).
  eexists _, _, _, _.
  split; [exists [OPut "a" 1; OPut "b" 2]; reflexivity|].
  split; [reflexivity|]. split; [reflexivity|]. split; [reflexivity|]. split; [reflexivity|].
  split; [reflexivity|]. split; [reflexivity|]. simpl. intros [H|[H|[]]]; discriminate.
Qed.
