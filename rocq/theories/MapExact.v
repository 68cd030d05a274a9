(** Exact boundaries of C09, C13 and C14: which callbacks, keys and maps misbehave. *)
From Coq Require Import SpecFloat Sorting.Permutation Sorting.Sorted.
From Verif Require Import Base Num OMap OMapSpec OMapProofs OMapJson Keys MapFacts.

(** ** JSON *)

Section Fill.
  Context {K V : Type} (sprint : K -> string).
  Local Notation text := (fun e : K * V => sprint (fst e)).

  Lemma upd_keys_nodup k (v : V) out : NoDup (map fst out) -> NoDup (map fst (gomap_upd String.eqb k v out)).
  Proof.
    induction out as [|[k' v'] out IH]; cbn; intros H; [constructor; [auto|constructor]|].
    destruct (String.eqb_spec k' k) as [->|E]; [exact H|]. cbn. inversion H as [|? ? N H']; subst. constructor; [|apply IH; exact H'].
    intros I. apply in_map_iff in I as [[a b] [<- I]]. cbn [fst] in N, E. clear IH H.
    induction out as [|[k2 v2] out IH2]; cbn in I; [destruct I as [I|[]]; injection I as -> ->; congruence|].
    inversion H' as [|? ? N2 H2]; subst. destruct (String.eqb_spec k2 k) as [->|E2]; cbn in I.
    - destruct I as [I|I]; [injection I as -> ->; apply N; left; reflexivity|]. apply N. right. apply (in_map fst) in I. exact I.
    - destruct I as [I|I]; [injection I as -> ->; apply N; left; reflexivity|]. apply IH2; auto. intros I2. apply N. right; exact I2.
  Qed.

  Lemma upd_in k (v : V) out t x : In (t, x) (gomap_upd String.eqb k v out) -> (t, x) = (k, v) \/ In (t, x) out.
  Proof.
    induction out as [|[k' v'] out IH]; cbn; [intros [H|[]]; auto|].
    destruct (String.eqb_spec k' k) as [->|E]; cbn; intros [H|H]; auto. destruct (IH H); auto.
  Qed.

  Lemma upd_here k (v : V) out : In (k, v) (gomap_upd String.eqb k v out).
  Proof.
    induction out as [|[k' v'] out IH]; cbn; [auto|]. destruct (String.eqb_spec k' k) as [->|E]; cbn; auto.
  Qed.

  Lemma upd_key_stays k (v : V) out t : In t (map fst out) -> In t (map fst (gomap_upd String.eqb k v out)).
  Proof.
    induction out as [|[k' v'] out IH]; cbn; [auto|]. destruct (String.eqb_spec k' k) as [->|E]; cbn; intros [H|H]; auto.
  Qed.

  Lemma fill_snoc en (e : K * V) : fill sprint (en ++ [e]) = gomap_upd String.eqb (text e) (snd e) (fill sprint en).
  Proof. unfold fill. rewrite fold_left_app. reflexivity. Qed.

  Lemma fill_nodup en : NoDup (map fst (fill sprint (V := V) en)).
  Proof. induction en as [|e en IH] using rev_ind; [constructor|]. rewrite fill_snoc. apply upd_keys_nodup. exact IH. Qed.

  Lemma fill_in en t (x : V) : In (t, x) (fill sprint en) -> exists e, In e en /\ text e = t /\ snd e = x.
  Proof.
    induction en as [|e en IH] using rev_ind; [intros []|]. rewrite fill_snoc. intros H. apply upd_in in H as [H|H].
    - injection H as -> ->. exists e. split; [apply in_or_app; right; left; reflexivity|auto].
    - destruct (IH H) as (e' & I & A & B). exists e'. split; [apply in_or_app; auto|auto].
  Qed.

  Lemma fill_has en (e : K * V) : In e en -> In (text e) (map fst (fill sprint en)).
  Proof.
    induction en as [|e' en IH] using rev_ind; [intros []|]. rewrite fill_snoc. intros H. apply in_app_or in H as [H|[->|[]]].
    - apply upd_key_stays. apply IH. exact H.
    - apply (in_map fst (gomap_upd String.eqb (text e) (snd e) (fill sprint en)) (text e, snd e)). apply upd_here.
  Qed.

  Lemma nodup_fst_inj (l : list (string * V)) t x y : NoDup (map fst l) -> In (t, x) l -> In (t, y) l -> x = y.
  Proof.
    induction l as [|[k v] l IH]; cbn; [intros _ []|]. intros N A B. inversion N as [|? ? N1 N2]; subst.
    destruct A as [A|A], B as [B|B].
    - injection A as -> ->. injection B as ->. reflexivity.
    - injection A as -> ->. contradiction N1. apply (in_map fst) in B. exact B.
    - injection B as -> ->. contradiction N1. apply (in_map fst) in A. exact A.
    - auto.
  Qed.

  (** Entries whose keys have the same text have the same value. *)
  Definition agree (l : list (K * V)) : Prop := forall e e', In e l -> In e' l -> text e = text e' -> snd e = snd e'.

  Lemma json_agree (m : omap K V) : outOrder m = false ->
    ((forall en1 en2, enumeration m en1 -> enumeration m en2 -> marshal_json sprint m en1 = marshal_json sprint m en2) <-> agree (index m)).
  Proof.
    intros O. unfold marshal_json, enumeration. rewrite O. split.
    - intros H e e' I I' T. destruct (in_split _ _ I) as (a & b & S). destruct (in_split _ _ I') as (a' & b' & S').
      specialize (H ((a ++ b) ++ [e]) ((a' ++ b') ++ [e'])).
      assert (P : forall (x : K * V) p q, index m = p ++ x :: q -> Permutation ((p ++ q) ++ [x]) (index m)).
      { intros x p q ->. rewrite <- Permutation_cons_append. apply Permutation_middle. }
      specialize (H (P _ _ _ S) (P _ _ _ S')). rewrite !fill_snoc in H. injection H as H.
      apply (nodup_fst_inj (gomap_upd String.eqb (text e') (snd e') (fill sprint (a' ++ b'))) (text e')).
      + apply upd_keys_nodup, fill_nodup.
      + apply (Permutation_in _ (sort_perm V _)). rewrite <- H. apply (Permutation_in _ (Permutation_sym (sort_perm V _))). rewrite <- T. apply upd_here.
      + apply upd_here.
    - intros A en1 en2 P1 P2. f_equal. apply sorted_unique; try apply sort_sorted.
      + eapply Permutation_NoDup; [apply Permutation_map, Permutation_sym, sort_perm|]. apply fill_nodup.
      + rewrite !sort_perm. apply NoDup_Permutation; [eapply NoDup_map_inv; apply fill_nodup..|].
        assert (X : forall en en', Permutation en (index m) -> Permutation en' (index m) -> forall t x, In (t, x) (fill sprint en) -> In (t, x) (fill sprint en')).
        { intros en en' Q Q' t x I. destruct (fill_in en t x I) as (e & Ie & <- & <-).
          assert (Ie' : In e en') by (apply (Permutation_in _ (Permutation_sym Q')), (Permutation_in _ Q); exact Ie).
          pose proof (fill_has en' e Ie') as Hk. apply in_map_iff in Hk as [[t y] [Et Iy]]. cbn [fst] in Et. subst t.
          destruct (fill_in en' _ _ Iy) as (e2 & I2 & T2 & V2). subst y.
          rewrite (A e e2); [exact Iy| | |symmetry; exact T2].
          - apply (Permutation_in _ Q). exact Ie.
          - apply (Permutation_in _ Q'). exact I2. }
        intros [t x]. split; apply X; assumption.
  Qed.

  Lemma json_complete (m : omap K V) en : outOrder m = false -> enumeration m en ->
    exists l, marshal_json sprint m en = JObject l /\ (List.length l = List.length (index m) <-> NoDup (map text (index m))).
  Proof.
    intros O P. unfold marshal_json. rewrite O. eexists. split; [reflexivity|]. unfold enumeration in P.
    rewrite (Permutation_length (sort_perm V (fill sprint en))). split.
    - intros L. apply (Permutation_NoDup (Permutation_map text P)).
      apply NoDup_incl_NoDup with (l := map fst (fill sprint en)).
      + apply fill_nodup.
      + rewrite !map_length. rewrite L. apply Permutation_length in P. lia.
      + intros t I. apply in_map_iff in I as [[t' x] [<- I]]. destruct (fill_in en t' x I) as (e & Ie & T & _). cbn [fst]. rewrite <- T.
        apply (in_map text). exact Ie.
    - intros N. rewrite fill_perm.
      + rewrite map_length. apply Permutation_length. exact P.
      + apply (Permutation_NoDup (Permutation_map text (Permutation_sym P))). exact N.
  Qed.
End Fill.

(** ** Keys *)

Lemma improper_key V (k : gkey) (m : omap gkey V) : gkey_proper k = false ->
  (forall v, am_put k v m = Panic /\ am_has k m = Panic) \/
  (forall v, exists m', am_put k v m = Ok m' /\ am_has k m' = Ok false /\ len m' = Datatypes.S (len m)).
Proof.
  unfold gkey_proper. intros H. apply andb_false_iff in H as [H|H].
  - left. intros v. unfold put, delete, index_of, has, gomap_get. rewrite H. auto.
  - right. intros v. destruct k as [| | | |f|]; try discriminate H. destruct f as [| | |]; try discriminate H.
    assert (N : forall k', gkey_eqb k' (KFloat S754_nan) = false) by (intros [| | | |[]|]; reflexivity).
    assert (X : forall l : list (gkey * V), gomap_find gkey_eqb (KFloat S754_nan) l = None).
    { induction l as [|[k' x] l IH]; [reflexivity|]. cbn [gomap_find]. rewrite N. exact IH. }
    assert (U : forall l : list (gkey * V), gomap_upd gkey_eqb (KFloat S754_nan) v l = l ++ [(KFloat S754_nan, v)]).
    { induction l as [|[k' x] l IH]; [reflexivity|]. cbn [gomap_upd]. rewrite N, IH. reflexivity. }
    unfold put, delete, index_of, has, gomap_get, gomap_set. cbn [gkey_hashable]. rewrite X. cbn [bind]. eexists. split; [reflexivity|].
    cbn [OMap.index]. rewrite X. split; [reflexivity|]. unfold len. cbn [ordered]. rewrite app_length. cbn. lia.
Qed.

(** ** ForEach *)

Section Each.
  Context {V : Type}.
  Local Notation SInv := (Inv String.eqb any_hash (V := V)).

  Lemma inv_step (m : omap string V) o : SInv m ->
    match sstep String.eqb (ordered m) o with
    | Some (l', r) => exists m', sm_step m o = Ok (m', r) /\ SInv m' /\ ordered m' = l'
    | None => sm_step m o = Panic
    end.
  Proof. intros H. exact (step_ok string V String.eqb any_hash seq_sym seq_trans m o H (skeys_good V o)). Qed.

  Lemma nodup_ordered (m : omap string V) : SInv m -> NoDup (map fst (ordered m)).
  Proof. intros H. apply uniq_nodup. apply (inv_uniq _ _ _ _ _ H). Qed.

  Lemma sdelete_at (l : list (string * V)) k v a b : NoDup (map fst l) -> l = a ++ (k, v) :: b -> sdelete String.eqb k l = a ++ b.
  Proof.
    intros N ->. unfold sdelete. rewrite filter_app. cbn [filter]. unfold other at 2. cbn [fst]. rewrite String.eqb_refl. cbn [negb].
    rewrite map_app in N. cbn [map fst] in N. apply NoDup_remove_2 in N.
    assert (X : forall c : list (string * V), ~ In k (map fst c) -> filter (other String.eqb k) c = c).
    { induction c as [|[k' v'] c IH]; [reflexivity|]. intros I. cbn [map fst] in I. cbn [filter]. unfold other at 1. cbn [fst].
      destruct (String.eqb_spec k' k) as [->|E]; [contradiction I; left; reflexivity|]. cbn [negb]. rewrite IH; [reflexivity|]. intros J. apply I. right; exact J. }
    rewrite !X; [reflexivity| |]; intros I; apply N; apply in_or_app; auto.
  Qed.

  Lemma split_at (l : list (string * V)) j k v : nth_error l j = Some (k, v) -> exists a b, l = a ++ (k, v) :: b /\ List.length a = j.
  Proof. intros H. apply nth_error_split in H as (a & b & H & L). eauto. Qed.

  Lemma exec_one (m : omap string V) o : sm_exec m [o] = do r <- sm_step m o; Ok (fst r).
  Proof. cbn [exec]. destruct (sm_step m o) as [[m' r]| |]; reflexivity. Qed.

  (** The callback deletes the entry it is given. *)
  Lemma each_delete_loop todo : forall j (m : omap string V) acc, SInv m -> len m = todo -> (1 <= todo)%nat -> (2 <= todo + j)%nat ->
    for_each_loop todo j (edit_cb V (fun k _ => [ODelete k])) (acc, m) = Panic.
  Proof.
    induction todo as [|todo IH]; intros j m acc I L T1 T2; [lia|]. cbn [for_each_loop snd].
    destruct (nth_error (ordered m) j) as [[k v]|] eqn:N; [|reflexivity]. unfold edit_cb at 1. cbn [snd fst]. rewrite exec_one.
    pose proof (inv_step m (ODelete k) I) as S1. cbn [sstep] in S1. destruct S1 as (m' & -> & I' & O'). cbn [bind fst].
    destruct (split_at _ _ _ _ N) as (a & b & E & La). rewrite (sdelete_at _ k v a b (nodup_ordered m I) E) in O'.
    assert (L' : len m' = todo). { unfold len in *. rewrite O'. rewrite E in L. rewrite app_length in *. cbn in L. lia. }
    apply IH; auto; try lia. unfold len in L. rewrite E, app_length in L. cbn in L. lia.
  Qed.

  Lemma each_delete (m : omap string V) : sm_reachable m ->
    (for_each (edit_cb V (fun k _ => [ODelete k])) [] m = Panic <-> (2 <= len m)%nat) /\
    ((len m < 2)%nat -> exists m', for_each (edit_cb V (fun k _ => [ODelete k])) [] m = Ok (entries m, m') /\ len m' = 0%nat).
  Proof.
    intros R. pose proof (sm_inv V m R) as I.
    assert (X : (len m < 2)%nat -> exists m', for_each (edit_cb V (fun k _ => [ODelete k])) [] m = Ok (entries m, m') /\ len m' = 0%nat).
    { intros L. rewrite entries_ordered. unfold for_each. unfold len in *. destruct (ordered m) as [|[k v] [|e l]] eqn:E; cbn [List.length] in *; [|clear L|lia].
      - exists m. cbn [for_each_loop]. rewrite E. split; reflexivity.
      - cbn [for_each_loop snd]. rewrite E. cbn [nth_error]. unfold edit_cb at 1. cbn [snd fst]. rewrite exec_one.
        pose proof (inv_step m (ODelete k) I) as S1. cbn [sstep] in S1. destruct S1 as (m' & -> & I' & O'). cbn [bind fst app].
        exists m'. split; [reflexivity|]. rewrite O', E. cbn. unfold other. cbn. rewrite String.eqb_refl. reflexivity. }
    split; [|exact X]. split.
    - intros P. destruct (Nat.le_gt_cases 2 (len m)) as [L|L]; [exact L|]. destruct (X L) as (m' & H & _). congruence.
    - intros L. unfold for_each. apply each_delete_loop; auto; lia.
  Qed.

  (** The callback puts the entry it is given again. *)
  Lemma each_put_loop x todo : forall j (m : omap string V) rest acc, SInv m -> ordered m = x :: rest -> (1 <= j)%nat -> (todo + j <= len m)%nat ->
    exists m' vis rest', for_each_loop todo j (edit_cb V (fun k v => [OPut k v])) (acc, m) = Ok (acc ++ vis, m') /\
      ~ In (fst x) (map fst vis) /\ List.length vis = todo /\ ordered m' = x :: rest' /\ Permutation (ordered m') (ordered m).
  Proof.
    induction todo as [|todo IH]; intros j m rest acc I E J T.
    - exists m, [], rest. cbn [for_each_loop]. rewrite app_nil_r. cbn. auto.
    - cbn [for_each_loop snd]. destruct (nth_error (ordered m) j) as [[k v]|] eqn:N; [|apply nth_error_None in N; unfold len in T; lia].
      unfold edit_cb at 1. cbn [snd fst]. rewrite exec_one.
      pose proof (inv_step m (OPut k v) I) as S1. cbn [sstep] in S1. destruct S1 as (m1 & -> & I1 & O1). cbn [bind fst].
      destruct (split_at _ _ _ _ N) as (a & b & E2 & La). unfold sput in O1. rewrite (sdelete_at _ k v a b (nodup_ordered m I) E2) in O1.
      destruct a as [|y a]; [cbn in La; lia|]. assert (y = x) by (rewrite E in E2; injection E2 as -> _; reflexivity). subst y.
      assert (Pm : Permutation (ordered m1) (ordered m)).
      { rewrite O1, E2. rewrite <- Permutation_cons_append. apply Permutation_middle. }
      destruct (IH (Datatypes.S j) m1 ((a ++ b) ++ [(k, v)]) (acc ++ [(k, v)])) as (m' & vis & rest' & H & NI & L & O' & P'); auto.
      + unfold len in *. rewrite (Permutation_length Pm). lia.
      + exists m', ((k, v) :: vis), rest'. rewrite H, <- app_assoc. split; [reflexivity|]. split; [|split; [|split; [exact O'|]]].
        * cbn [map fst]. intros [X|X]; [|contradiction]. pose proof (nodup_ordered m I) as ND. rewrite E2 in ND. cbn [app map] in ND.
          inversion ND as [|? ? N1 _]; subst. apply N1. rewrite map_app. apply in_or_app. right. left. reflexivity.
        * cbn. rewrite L. reflexivity.
        * rewrite P'. exact Pm.
  Qed.

  Lemma each_put (m : omap string V) e0 e1 rest : sm_reachable m -> entries m = e0 :: e1 :: rest ->
    exists m' visited, for_each (edit_cb V (fun k v => [OPut k v])) [] m = Ok (visited, m') /\
      Permutation (entries m') (entries m) /\ List.length visited = len m /\ ~ In (fst e1) (map fst visited).
  Proof.
    intros R. rewrite !entries_ordered. intros E. pose proof (sm_inv V m R) as I. unfold for_each.
    assert (L : len m = Datatypes.S (Datatypes.S (List.length rest))) by (unfold len; rewrite E; reflexivity). rewrite L.
    cbn [for_each_loop snd]. rewrite E. cbn [nth_error]. destruct e0 as [k v]. unfold edit_cb at 1. cbn [snd fst]. rewrite exec_one.
    pose proof (inv_step m (OPut k v) I) as S1. cbn [sstep] in S1. destruct S1 as (m1 & -> & I1 & O1). cbn [bind fst].
    unfold sput in O1. rewrite (sdelete_at _ k v [] (e1 :: rest) (nodup_ordered m I) E) in O1. cbn [app] in O1.
    assert (Pm : Permutation (ordered m1) (ordered m)). { rewrite O1, E. rewrite app_comm_cons. rewrite <- Permutation_cons_append. reflexivity. }
    destruct (each_put_loop e1 (Datatypes.S (List.length rest)) 1 m1 (rest ++ [(k, v)]) [(k, v)]) as (m' & vis & rest' & H & NI & Lv & O' & P'); auto.
    { unfold len. rewrite (Permutation_length Pm), E. cbn. lia. }
    cbn [for_each_loop] in H. exists m', ((k, v) :: vis). rewrite entries_ordered. split; [|split; [|split]].
    - exact H.
    - rewrite P', Pm, E. reflexivity.
    - cbn. rewrite Lv. reflexivity.
    - cbn [map fst]. intros [X|X]; [|contradiction]. pose proof (nodup_ordered m I) as ND. rewrite E in ND. cbn [map fst] in ND.
      inversion ND as [|? ? N1 _]; subst. apply N1. left. first [reflexivity | assumption | congruence].
  Qed.

  (** The callback deletes nothing. *)
  Definition deletes_nothing (o : op string V) : bool := match o with ODelete _ | OAt _ => false | _ => true end.

  Lemma sput_length k v (l : list (string * V)) : NoDup (map fst l) -> (List.length l <= List.length (sput String.eqb k v l))%nat.
  Proof.
    intros N. unfold sput. rewrite app_length. cbn [List.length].
    destruct (in_dec string_dec k (map fst l)) as [I|I].
    - apply in_map_iff in I as [[k' x] [E I]]. cbn [fst] in E. subst k'. destruct (in_split _ _ I) as (a & b & ->).
      rewrite (sdelete_at _ k x a b N eq_refl). rewrite !app_length. cbn. lia.
    - assert (X : forall c : list (string * V), ~ In k (map fst c) -> sdelete String.eqb k c = c).
      { induction c as [|[k' v'] c IH]; [reflexivity|]. intros J. cbn [map fst] in J. unfold sdelete. cbn [filter]. unfold other at 1. cbn [fst].
        destruct (String.eqb_spec k' k) as [->|E]; [contradiction J; left; reflexivity|]. cbn [negb].
        fold (sdelete String.eqb k c). rewrite IH; [reflexivity|]. intros J'. apply J. right; exact J'. }
      rewrite (X l I). lia.
  Qed.

  Lemma grows_exec ops : forall m : omap string V, SInv m -> forallb deletes_nothing ops = true ->
    exists m', sm_exec m ops = Ok m' /\ SInv m' /\ (len m <= len m')%nat.
  Proof.
    induction ops as [|o ops IH]; intros m I G; cbn [forallb exec] in *; [exists m; auto|]. apply andb_true_iff in G as [G1 G2].
    pose proof (inv_step m o I) as S1.
    assert (X : exists m1 r, sm_step m o = Ok (m1, r) /\ SInv m1 /\ (len m <= len m1)%nat).
    { destruct o as [k v|k [v|]|k v|k v|k|b|k|k|k| |j|k|]; try discriminate G1; cbn [sstep] in S1; destruct S1 as (m1 & H & I1 & O1); exists m1; eexists; (split; [exact H|split; [exact I1|]]); unfold len; rewrite O1; try lia.
      - apply sput_length. apply nodup_ordered; exact I.
      - apply sput_length. apply nodup_ordered; exact I.
      - destruct (shas String.eqb k (ordered m)).
        + rewrite <- (map_length fst (sreplace _ _ _ _)), sreplace_fst, map_length. lia.
        + apply sput_length. apply nodup_ordered; exact I.
      - rewrite <- (map_length fst (sreplace _ _ _ _)), sreplace_fst, map_length. lia. }
    destruct X as (m1 & r & -> & I1 & L1). cbn [bind fst]. destruct (IH m1 I1 G2) as (m2 & H & I2 & L2). exists m2. split; [exact H|]. split; [exact I2|lia].
  Qed.

  Lemma each_grow_loop acts todo : (forall k v, forallb deletes_nothing (acts k v) = true) ->
    forall j (m : omap string V) acc, SInv m -> (todo + j <= len m)%nat ->
    exists m' vis, for_each_loop todo j (edit_cb V acts) (acc, m) = Ok (acc ++ vis, m') /\ List.length vis = todo.
  Proof.
    intros G. induction todo as [|todo IH]; intros j m acc I T.
    - exists m, []. cbn. rewrite app_nil_r. auto.
    - cbn [for_each_loop snd]. destruct (nth_error (ordered m) j) as [[k v]|] eqn:N; [|apply nth_error_None in N; unfold len in T; lia].
      unfold edit_cb at 1. cbn [snd fst]. destruct (grows_exec (acts k v) m I (G k v)) as (m1 & -> & I1 & L1). cbn [bind].
      destruct (IH (Datatypes.S j) m1 (acc ++ [(k, v)]) I1) as (m' & vis & H & L); [lia|]. exists m', ((k, v) :: vis). rewrite H, <- app_assoc.
      split; [reflexivity|]. cbn. rewrite L. reflexivity.
  Qed.
End Each.
