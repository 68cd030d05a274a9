(** What is written of an object in which two things have the same key. *)
From Coq Require Import SpecFloat.
From Verif Require Import Base Num OMap OMapSpec Keys Yaml Values Assign Formats Meta Out Xml Example DataType Marshal TypeFacts Fields FacetSpec FieldProofs FacetProofs DocProofs Segs TypeSegs WriteSpec WriteProofs Doc Api Library ApiSpec ApiWrite LibRound.

(** ** Vocabulary *)

(** Of keys that are equal for Go, the last one. *)
Fixpoint last_keys (l : list gkey) : list gkey :=
  match l with
  | [] => []
  | a :: t => if existsb (fun b => gkey_eqb a b) t then last_keys t else a :: last_keys t
  end.
(** The keys of a written mapping. *)
Definition has_keys {F : FloatIO} (ks : list gkey) (l : list (node * node)) : Prop := Forall2 (fun k p => key_node k = Ok (fst p)) ks l.

(** The keys of all there is to write of a definition, an API document, a library. *)
Definition type_keys (d : dtype) : list gkey := flat_map (field_keys d) (write_order (d_kind d)).
Definition api_keys (a : api) : list gkey := flat_map (api_field_keys a) api_order.
Definition lib_keys (a : library) : list gkey := flat_map (lib_field_keys a) lib_order.

(** ** Proofs *)

Fixpoint last_puts (l : outm) : outm :=
  match l with
  | [] => []
  | a :: t => if existsb (fun b => gkey_eqb (fst a) b) (map fst t) then last_puts t else a :: last_puts t
  end.
Lemma last_puts_keys l : map fst (last_puts l) = last_keys (map fst l).
Proof. induction l as [|a l IH]; [reflexivity|]. cbn. destruct (existsb _ _); [exact IH|cbn; rewrite IH; reflexivity]. Qed.

Definition kept (l : outm) (e : gkey * res node) : bool := negb (existsb (fun b => gkey_eqb (fst e) b) (map fst l)).
Lemma filter_filter {A} (f g : A -> bool) l : filter f (filter g l) = filter (fun a => g a && f a) l.
Proof. induction l as [|a l IH]; [reflexivity|]. cbn. destruct (g a); cbn; [destruct (f a); rewrite IH; reflexivity|exact IH]. Qed.
Lemma puts_last l : forall o, puts_all l o = filter (kept l) o ++ last_puts l.
Proof.
  induction l as [|a l IH]; intros o.
  - cbn. rewrite app_nil_r. induction o as [|e o IH]; [reflexivity|]. cbn. f_equal. exact IH.
  - change (puts_all (a :: l) o) with (puts_all l (oput (fst a) (snd a) o)). rewrite IH. unfold oput, sput, sdelete. rewrite filter_app, filter_filter, <- app_assoc. f_equal.
    + apply filter_ext. intros e. unfold kept, other. cbn. destruct (gkey_eqb (fst e) (fst a)); reflexivity.
    + cbn. unfold kept. cbn. destruct a as [k r]. cbn. destruct (existsb _ _); reflexivity.
Qed.
Lemma puts_nil l : puts_all l [] = last_puts l.
Proof. rewrite puts_last. reflexivity. Qed.

Lemma last_length l : (List.length (last_keys l) <= List.length l)%nat.
Proof. induction l as [|a l IH]; [reflexivity|]. cbn. destruct (existsb _ _); cbn; lia. Qed.
Lemma last_apart l : apart l = true <-> last_keys l = l.
Proof.
  induction l as [|a l IH]; [split; reflexivity|]. cbn. destruct (existsb (fun b => gkey_eqb a b) l) eqn:E.
  - split; [intros H|].
    + exfalso. apply andb_true_iff in H as [H _]. apply existsb_exists in E as [b [I E]]. rewrite forallb_forall in H. specialize (H b I). rewrite E in H. discriminate H.
    + intros H. pose proof (last_length l) as L. rewrite H in L. cbn in L. lia.
  - rewrite andb_true_iff, IH. split; [intros [_ H]; rewrite H; reflexivity|]. intros H. injection H as H. split; [|exact H].
    apply forallb_forall. intros b I. destruct (gkey_eqb a b) eqn:G; [|reflexivity]. assert (X : existsb (fun b => gkey_eqb a b) l = true) by (apply existsb_exists; eauto). congruence.
Qed.
Lemma last_same_length l : List.length (last_keys l) = List.length l -> last_keys l = l.
Proof.
  induction l as [|a l IH]; [reflexivity|]. cbn. pose proof (last_length l). destruct (existsb _ _); cbn; [lia|]. intros H1. f_equal. apply IH. lia.
Qed.
Lemma last_some k l : In k l -> exists x, In x (last_keys l) /\ (x = k \/ gkey_eqb k x = true).
Proof.
  revert k. induction l as [|a l IH]; intros k I; [destruct I|]. cbn. destruct (existsb (fun b => gkey_eqb a b) l) eqn:E.
  - destruct I as [<-|I]; [|apply IH; exact I]. apply existsb_exists in E as [b [I E]]. destruct (IH b I) as [x [J X]]. exists x. split; [exact J|right]. destruct X as [->|X]; [exact E|exact (gkey_eqb_trans _ _ _ E X)].
  - destruct I as [<-|I]; [exists a; split; [left; reflexivity|left; reflexivity]|]. destruct (IH k I) as [x [J X]]. exists x. split; [right; exact J|exact X].
Qed.
Lemma last_in l e : In e (last_puts l) -> In e l.
Proof. induction l as [|a l IH]; [intros []|]. cbn. destruct (existsb _ _); [intros I; right; apply IH; exact I|intros [<-|I]; [left; reflexivity|right; apply IH; exact I]]. Qed.
Lemma eq_type a : gkey_eqb a (KStr "type") = true -> a = KStr "type".
Proof. destruct a; cbn; try discriminate. intros H. apply String.eqb_eq in H. subst. reflexivity. Qed.

Section Exact.
  Context {F : FloatIO}.

  Lemma keys_iff ks l : has_keys (last_keys ks) l -> (has_keys ks l <-> apart ks = true).
  Proof.
    intros H. split; intros G.
    - apply last_apart. apply last_same_length. assert (L : forall k, has_keys k l -> List.length k = List.length l).
      { intros k. clear. revert k. induction l as [|p l IH]; intros k X; inversion X; subst; cbn; [reflexivity|]. f_equal. apply IH. assumption. }
      rewrite (L _ H), (L _ G). reflexivity.
    - apply last_apart in G. rewrite <- G. exact H.
  Qed.
  Lemma out_keys o n : out_to_yaml (last_puts o) = Ok n -> exists l, n = Map TMap l /\ has_keys (last_keys (map fst o)) l.
  Proof.
    intros H. apply out_to_yaml_ok in H as [l [-> H]]. exists l. split; [reflexivity|]. rewrite <- last_puts_keys. unfold has_keys. induction H as [|e p o' l' [H1 _] _ IH]; cbn; constructor; auto.
  Qed.

  Lemma api_exact a n : api_marshal a = Ok n -> exists l, n = Map TMap l /\ has_keys (last_keys (api_keys a)) l.
  Proof.
    unfold api_marshal. rewrite api_out_segs, puts_nil. intros H. apply out_keys in H as [l [-> H]]. exists l. split; [reflexivity|].
    unfold api_keys. rewrite <- (flat_map_ext _ _ (api_seg_keys a)), <- map_flat_map. exact H.
  Qed.
  Lemma lib_exact a n : lib_marshal a = Ok n -> exists l, n = Map TMap l /\ has_keys (last_keys (lib_keys a)) l.
  Proof.
    unfold lib_marshal. rewrite lib_out_segs, puts_nil. intros H. apply out_keys in H as [l [-> H]]. exists l. split; [reflexivity|].
    unfold lib_keys. rewrite <- (flat_map_ext _ _ (lib_seg_keys a)), <- map_flat_map. exact H.
  Qed.

  Definition proper_type (d : dtype) : Prop := shaped d /\ forall z, getf FMinLength d = Some (VInt z) -> (0 <= z)%Z.

  Lemma type_out d : shaped d -> to_yaml d = short_or_full (last_puts (segs to_yaml d)).
  Proof.
    intros Hs. rewrite to_yaml_eq. unfold to_yaml_body. rewrite type_marshal_segs; [rewrite puts_nil; reflexivity|]. destruct d as [b|b x f c s]; [right; eauto|]. left. apply (shaped_cases b x f c s) in Hs. cbn. tauto.
  Qed.
  Lemma short_last d : proper_type d -> is_short (last_puts (segs to_yaml d)) = true <-> (forall k, In k (type_keys d) -> k = KStr "type").
  Proof.
    intros [Hs Hz]. unfold is_short, type_keys. rewrite <- (segs_keys to_yaml d Hs Hz). set (o := segs to_yaml d). pose proof (has_type to_yaml d) as Ht. fold o in Ht. split.
    - intros H k I. apply andb_true_iff in H as [L H]. apply Nat.eqb_eq in L. apply existsb_exists in H as [e [I1 E1]]. apply eq_type in E1. destruct (last_some _ _ I) as [x [J X]].
      rewrite <- last_puts_keys in J. apply in_map_iff in J as [e2 [<- J]]. destruct (last_puts o) as [|e0 [|e3 r]] eqn:P; try discriminate L. destruct I1 as [<-|[]]. destruct J as [<-|[]].
      rewrite E1 in X. destruct X as [X|X]; [symmetry; exact X|apply eq_type; exact X].
    - intros H. assert (K : last_keys (map fst o) = [KStr "type"]).
      { assert (N : map fst o <> []). { apply existsb_exists in Ht as [e [I _]]. destruct o; [destruct I|discriminate]. } revert H N. generalize (map fst o) as l. induction l as [|a l IH]; intros H N; [congruence|].
        cbn. rewrite (H a (or_introl eq_refl)). destruct l as [|b l]; [reflexivity|]. assert (Hb : b = KStr "type") by (apply H; right; left; reflexivity).
        assert (X : existsb (fun c => gkey_eqb (KStr "type") c) (b :: l) = true) by (rewrite Hb; reflexivity). rewrite X. apply IH; [|discriminate]. intros k I. apply H. right. exact I. }
      rewrite <- last_puts_keys in K. destruct (last_puts o) as [|[k r] [|e t]]; try discriminate K. injection K as ->. reflexivity.
  Qed.
  Lemma type_exact d n : proper_type d -> (exists k, In k (type_keys d) /\ k <> KStr "type") -> to_yaml d = Ok n -> exists l, n = Map TMap l /\ has_keys (last_keys (type_keys d)) l.
  Proof.
    intros Hp [k [I N]] H. pose proof (short_last d Hp) as S. destruct Hp as [Hs Hz]. rewrite (type_out d Hs) in H. unfold short_or_full in H. destruct (is_short (last_puts (segs to_yaml d))) eqn:E.
    - exfalso. apply N. apply (proj1 S); [reflexivity|exact I].
    - apply out_keys in H as [l [-> H]]. exists l. split; [reflexivity|]. unfold type_keys. rewrite <- (segs_keys to_yaml d Hs Hz). exact H.
  Qed.
  Lemma type_short d : proper_type d -> (forall k, In k (type_keys d) -> k = KStr "type") ->
    exists r, In (KStr "type", r) (segs to_yaml d) /\ to_yaml d = r /\ (List.length (type_keys d) = 1%nat -> r = Ok (type_node (d_base d))).
  Proof.
    intros Hp H. pose proof (proj2 (short_last d Hp) H) as S. destruct Hp as [Hs Hz]. rewrite (type_out d Hs). unfold short_or_full. rewrite S. unfold is_short in S. apply andb_true_iff in S as [L S]. apply Nat.eqb_eq in L.
    destruct (last_puts (segs to_yaml d)) as [|[k r] [|e t]] eqn:P; try discriminate L. apply existsb_exists in S as [e [[<-|[]] E]]. apply eq_type in E. cbn in E. subst k. exists r.
    assert (I : In (KStr "type", r) (segs to_yaml d)) by (apply last_in; rewrite P; left; reflexivity). split; [exact I|]. split; [reflexivity|].
    intros L1. unfold type_keys in L1. rewrite <- (segs_keys to_yaml d Hs Hz), map_length in L1. assert (J : In (KStr "type", Ok (type_node (d_base d))) (segs to_yaml d)) by (unfold segs; apply in_or_app; right; left; reflexivity).
    destruct (segs to_yaml d) as [|e1 [|e2 q]]; try discriminate L1. destruct I as [->|[]]. destruct J as [J|[]]. injection J as ->. reflexivity.
  Qed.
End Exact.

Section Short.
  Context {F : FloatIO}.

  Lemma only_type_keys d : proper_type d -> (only_type d <-> type_keys d = [KStr "type"]).
  Proof.
    intros [Hs Hz]. split.
    - intros Ho. assert (N : forall f, f <> FType -> field_keys d f = []).
      { intros f Hf. unfold field_keys. destruct (getf f d) as [v|] eqn:G; [|reflexivity].
        pose proof (Ho f v Hf G) as D. pose proof (get_spec_sort d f v Hs G) as S.
        destruct v; try (rewrite D; destruct f; congruence || reflexivity);
          (destruct f; cbn in S; destruct (d_kind d); try discriminate S; cbn in D; destruct m as [[|? ?] ?]; try reflexivity; discriminate D). }
      assert (G : forall l, ~ In FType l -> flat_map (field_keys d) l = []).
      { induction l as [|f l IH]; intros H; [reflexivity|]. cbn. rewrite N, IH; [reflexivity| |]; intros H'; apply H; [right|left]; congruence. }
      assert (I : In FType (write_order (d_kind d))) by (eapply in_write_order; [exact Hs|apply getf_type]). pose proof (write_order_nodup (d_kind d)) as D. unfold type_keys.
      apply in_split in I as [p [q E]]. rewrite E in *. rewrite flat_map_app. cbn [flat_map]. apply NoDup_remove_2 in D. rewrite !G; [|intros J; apply D; apply in_or_app; auto..].
      unfold field_keys. rewrite getf_type. reflexivity.
    - intros E f v N G. apply (field_keys_default d f v Hs G N). destruct (field_keys d f) eqn:K; [reflexivity|]. exfalso.
      assert (2 <= List.length (type_keys d))%nat; [|rewrite E in *; cbn in *; lia]. apply (flat_map_two _ _ f FType).
      + eapply in_write_order; eassumption.
      + eapply in_write_order; [exact Hs|apply getf_type].
      + exact N.
      + rewrite K. discriminate.
      + unfold field_keys. rewrite getf_type. discriminate.
  Qed.

  Lemma last_all (l : outm) (e : gkey * res node) : (forall x, In x (l ++ [e]) -> fst x = KStr "type") -> last_puts (l ++ [e]) = [e].
  Proof.
    induction l as [|a l IH]; intros H; [reflexivity|]. cbn. assert (X : existsb (fun b => gkey_eqb (fst a) b) (map fst (l ++ [e])) = true).
    { apply existsb_exists. exists (fst e). split; [apply in_map; apply in_or_app; right; left; reflexivity|]. rewrite (H a (or_introl eq_refl)), (H e); [reflexivity|]. right. apply in_or_app. right. left. reflexivity. }
    rewrite X. apply IH. intros x I. apply H. right. exact I.
  Qed.

  Definition anns_of (d : dtype) : list (string * untyped) := match getf FAnns d with Some (VAnns m) => ents m | _ => [] end.
  Lemma field_from d f e : proper_type d -> f <> FType -> In e (field_segs to_yaml d f) -> fst e = KStr "type" ->
    (exists v, In (KStr "type", v) (ents (d_extra d)) /\ snd e = to_node v) \/ (exists m, In ("type", m) (anns_of d) /\ snd e = untyped_to_yaml m).
  Proof.
    intros [Hs Hz] N I K. pose proof I as I0. apply (in_map fst) in I0. rewrite field_segs_keys in I0 by assumption. destruct (field_keys_in d f _ Hs I0) as [[-> _]|[[-> _]|[N1 [N2 E]]]].
    - left. unfold field_segs in I. rewrite getf_extra in I. apply in_map_iff in I as [[k v] [<- I]]. cbn in *. subst k. exists v. split; [exact I|reflexivity].
    - right. unfold field_segs in I. unfold anns_of. destruct (getf FAnns d) as [v|] eqn:G; [|destruct I]. pose proof (get_spec_sort d FAnns v Hs G) as S.
      destruct v; try (cbn in S; destruct (d_kind d); discriminate S). apply in_map_iff in I as [[k v] [<- I]]. cbn in *. injection K as ->. exists v. split; [exact I|reflexivity].
    - exfalso. rewrite K in E. injection E as E. destruct f; try congruence; discriminate E.
  Qed.
  Lemma hidden_type d : proper_type d -> ~ only_type d -> (forall k, In k (type_keys d) -> k = KStr "type") ->
    (exists v, In (KStr "type", v) (ents (d_extra d)) /\ to_yaml d = to_node v) \/ (exists m, In ("type", m) (anns_of d) /\ to_yaml d = untyped_to_yaml m).
  Proof.
    intros Hp No H. pose proof (only_type_keys d Hp) as O. pose proof (proj2 (short_last d Hp) H) as Sh. pose proof Hp as [Hs Hz]. rewrite (type_out d Hs). unfold short_or_full. rewrite Sh.
    assert (Ha : forall x, In x (segs to_yaml d) -> fst x = KStr "type") by (intros x I; apply H; unfold type_keys; rewrite <- (segs_keys to_yaml d Hs Hz); apply in_map; exact I).
    assert (L : type_keys d = map fst (segs to_yaml d)) by (symmetry; apply segs_keys; assumption).
    rewrite (segs_fields to_yaml d Hs) in *. assert (I : In FType (write_order (d_kind d))) by (eapply in_write_order; [exact Hs|apply getf_type]).
    pose proof (write_order_nodup (d_kind d)) as D.
    assert (X : exists p q, write_order (d_kind d) = p ++ FType :: q /\ ~ In FType (p ++ q) /\ ~ In FExtra p /\ ~ In FAnns p).
    { destruct (d_kind d); (eexists []; eexists; split; [reflexivity|split; [|split; [tauto|tauto]]]; cbn; intuition discriminate) || (eexists [FDefault; FDisplay; FDescr]; eexists; split; [reflexivity|split; [|split]]; cbn; intuition discriminate). }
    destruct X as [p [q [E [Nt [N1 N2]]]]]. rewrite E in *. rewrite flat_map_app in *. cbn [flat_map] in *.
    assert (Ep : flat_map (field_segs to_yaml d) p = []).
    { destruct (flat_map (field_segs to_yaml d) p) as [|e r] eqn:P; [reflexivity|exfalso]. assert (Ie : In e (flat_map (field_segs to_yaml d) p)) by (rewrite P; left; reflexivity).
      apply in_flat_map in Ie as [f [If Ie]]. assert (K : fst e = KStr "type") by (apply Ha; left; reflexivity). apply (in_map fst) in Ie. rewrite field_segs_keys in Ie by assumption.
      destruct (field_keys_in d f _ Hs Ie) as [[-> _]|[[-> _]|[M1 [M2 Ek]]]]; [contradiction..|]. rewrite K in Ek. injection Ek as Ek.
      assert (f <> FType) by (intros ->; apply Nt; apply in_or_app; auto). destruct f; try congruence; discriminate Ek. }
    rewrite Ep in *. cbn [app] in *. assert (Et : exists t, field_segs to_yaml d FType = [t]) by (unfold field_segs; rewrite getf_type; cbn; eexists; reflexivity). destruct Et as [t Et]. rewrite Et in *. cbn [app] in *.
    destruct (flat_map (field_segs to_yaml d) q) as [|e0 r0] eqn:Q.
    - exfalso. apply No. apply (proj2 O). rewrite L. cbn. rewrite (Ha t (or_introl eq_refl)). reflexivity.
    - assert (Z : exists r e, e0 :: r0 = r ++ [e]) by (destruct (exists_last (l := e0 :: r0)) as [r [e Z]]; [discriminate|exists r, e; exact Z]). destruct Z as [r [e Z]]. rewrite Z in *.
      assert (Ie : In e (flat_map (field_segs to_yaml d) q)) by (rewrite Q; apply in_or_app; right; left; reflexivity).
      assert (Ke : fst e = KStr "type") by (apply Ha; right; apply in_or_app; right; left; reflexivity).
      assert (Lp : last_puts (t :: r ++ [e]) = [e]) by (change (t :: r ++ [e]) with ((t :: r) ++ [e]); apply last_all; exact Ha). rewrite Lp. destruct e as [k v]. cbn in Ke. subst k. cbn.
      apply in_flat_map in Ie as [f [If Ie]]. apply (field_from d f (KStr "type", v) Hp); [|exact Ie|reflexivity]. intros ->. apply Nt. apply in_or_app. auto.
  Qed.
End Short.
