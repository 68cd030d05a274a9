(** C41, the refutation in full: annotations and facet definitions of a type definition that was read never come back. *)
From Coq Require Import SpecFloat.
From Verif Require Import Base Num OMap OMapSpec Keys Yaml Values Assign Formats Meta Out Xml Example DataType Marshal
  AssignProofs TypeFacts Fields FieldProofs FacetSpec FacetProofs DocProofs OrderProofs PathProofs TypeWrite Segs ExProofs Same ExRound TypeSegs WriteSpec WriteProofs
  ReadInv RoundSpec RoundProofs WasRead.

Lemma fold_ok_in {S A} (f : S -> A -> res S) l a : In a l -> forall s r, fold_res f s l = Ok r -> exists s1 s2, f s1 a = Ok s2.
Proof.
  induction l as [|b l IH]; intros Hi s r H; [destruct Hi|]. cbn in H. apply bind_ok in H as [s' [H1 H2]].
  destruct Hi as [->|Hi]; [eauto|exact (IH Hi _ _ H2)].
Qed.

Section Lost.
  Context {F : FloatIO}.

  (** A pair of the output map is a pair of what is written. *)
  Lemma written_in d n f a r : tidy d -> to_yaml d = Ok n -> f <> FType -> In (a, r) (field_segs to_yaml d f) -> In f (write_order (d_kind d)) ->
    exists l k v, n = Map TMap l /\ In (k, v) l /\ key_node a = Ok k /\ r = Ok v.
  Proof.
    intros Ht H Nt Hi Hf. pose proof (written_pairs d Ht) as W. rewrite H in W.
    destruct (is_short (segs to_yaml d)) eqn:E.
    - exfalso. pose proof (short_only to_yaml d Ht E) as Ho. pose proof (only_type_segs to_yaml d Ht Ho) as S.
      rewrite segs_fields in S by exact (proj1 Ht).
      assert (X : In (a, r) (flat_map (field_segs to_yaml d) (write_order (d_kind d)))) by (apply in_flat_map; eauto).
      rewrite S in X. destruct X as [X|[]]. injection X as <- <-.
      assert (K : In (KStr "type") (map fst (field_segs to_yaml d f))) by (apply in_map_iff; eexists; split; [|exact Hi]; reflexivity).
      destruct Ht as [T1 [T2 [T3 [T4 [T5 T6]]]]]. rewrite field_segs_keys in K by assumption.
      assert (Y : In (KStr "type") (field_keys d FType)).
      { unfold field_keys. rewrite getf_type. left. reflexivity. }
      assert (D : apart (flat_map (field_keys d) (write_order (d_kind d))) = true) by (apply tidy_apart; repeat split; assumption || apply T5; assumption).
      clear -K Y D Nt Hf.
      assert (O : In FType (write_order (d_kind d))) by (destruct (d_kind d); cbn; tauto).
      assert (Z : forall l, In f l -> In FType l -> apart (flat_map (field_keys d) l) = true -> False).
      { induction l as [|g l IH]; intros H1 H2 H3; [destruct H1|]. cbn [flat_map] in H3. apply apart_app in H3 as [A1 [A2 A3]].
        destruct H1 as [->|H1], H2 as [E2|H2].
        - congruence.
        - pose proof (A3 (KStr "type") (KStr "type")) as A. specialize (A K). change (gkey_eqb (KStr "type") (KStr "type")) with true in A.
          assert (true = false); [|discriminate]. apply A. apply in_flat_map. eauto.
        - subst g. pose proof (A3 (KStr "type") (KStr "type")) as A. specialize (A Y). change (gkey_eqb (KStr "type") (KStr "type")) with true in A.
          assert (true = false); [|discriminate]. apply A. apply in_flat_map. eauto.
        - auto. }
      exact (Z _ Hf O D).
    - symmetry in W. apply out_to_yaml_ok in W as [l [-> W]].
      assert (X : In (a, r) (flat_map (field_segs to_yaml d) (write_order (d_kind d)))) by (apply in_flat_map; eauto).
      clear -X W. exists l. induction W as [|e p o l [H1 H2] W IH]; [destruct X|].
      destruct X as [->|X].
      + destruct p as [k v]. exists k, v. split; [reflexivity|]. split; [left; reflexivity|]. auto.
      + destruct (IH X) as [k [v [E [Hi [K1 K2]]]]]. exists k, v. split; [reflexivity|]. split; [right; exact Hi|]. auto.
  Qed.

  (** What is read of such a pair. *)
  Lemma read_pair l d' k v : hat (Map TMap l) = Ok d' -> In (k, v) l ->
    exists d1 f old w, shaped d1 /\ same_shape d1 d' = true /\ target d1 k = Some f /\ getf f d1 = Some old /\ step hat (d_kind d1) f k v old = Ok w.
  Proof.
    intros H Hi. apply hat_map in H as [d0 [H0 H]]; [|discriminate].
    assert (S0 : shaped d0) by (apply sift_start in H0 as [k0 [s0 ->]]; apply shaped_set_schema, shaped_new).
    assert (X : forall l, In (k, v) l -> forall d0, shaped d0 -> fold_res (type_assign hat) d0 l = Ok d' ->
      exists d1 f old w, shaped d1 /\ same_shape d1 d' = true /\ target d1 k = Some f /\ getf f d1 = Some old /\ step hat (d_kind d1) f k v old = Ok w).
    { clear. induction l as [|e l IH]; intros Hi d0 S0 H; [destruct Hi|]. cbn in H. apply bind_ok in H as [d1 [H1 H2]].
      destruct Hi as [->|Hi].
      2:{ destruct e as [ek ev]. apply assign_ok in H1 as [f [old [w [_ [_ [_ [-> _]]]]]]]. exact (IH Hi _ (shaped_setf _ _ _ S0) H2). }
      pose proof (assign_kind hat _ _ _ H1) as [_ S1]. pose proof (fold_kind hat _ _ _ H2) as [_ S2].
      apply assign_ok in H1 as [f [old [w [T1 [T2 [T3 _]]]]]].
      exists d0, f, old, w. split; [exact S0|]. split; [|auto].
      destruct d0, d1, d'; try discriminate S1; try discriminate S2; try reflexivity;
        destruct s, s0, s1; try discriminate S1; try discriminate S2; reflexivity. }
    exact (X l Hi d0 S0 H).
  Qed.

  Lemma facets_lost n d m n' d' : hat n = Ok d -> tidy d -> getf FFacets d = Some (VFacets m) -> ents m <> [] ->
    to_yaml d = Ok n' -> hat n' = Ok d' -> getf FFacets d' = None.
  Proof.
    intros H Ht G Hm W R. pose proof (hat_read n d H FFacets (VFacets m) G) as [O [_ _]].
    assert (S : field_segs to_yaml d FFacets = [(KStr "facets", facets_to_yaml to_yaml m)]).
    { unfold field_segs. rewrite G. cbn. destruct m as [[|e l] o]; [contradiction|]. reflexivity. }
    destruct (written_in d n' FFacets (KStr "facets") (facets_to_yaml to_yaml m) Ht W) as [l [k [v [-> [Hi [K V]]]]]].
    { discriminate. } { rewrite S. left. reflexivity. } { eapply in_write_order; [exact (proj1 Ht)|exact G]. }
    cbn in K. injection K as <-. destruct (read_pair l d' _ _ R Hi) as [d1 [f [old [w [Z1 [S1 [T1 [G1 T2]]]]]]]].
    destruct d1 as [b|b x fs c s]; [destruct d'; [reflexivity|discriminate S1]|]. exfalso.
    assert (Ef : f = FFacets) by (destruct s; cbn in T1; congruence). subst f. cbn in G1. injection G1 as <-. cbn in T2.
    apply bind_ok in T2 as [m' [T2 _]]. apply read_amap_map in T2 as [t [l' [kvs [-> _]]]].
    unfold facets_to_yaml, map_to_yaml in V. rewrite O in V. apply bind_ok in V as [y [_ V]]. discriminate V.
  Qed.

  Lemma anns_lost n d m n' d' : hat n = Ok d -> tidy d -> getf FAnns d = Some (VAnns m) -> ents m <> [] ->
    to_yaml d = Ok n' -> hat n' = Ok d' -> getf FAnns d' = None.
  Proof.
    intros H Ht G Hm W R. pose proof (hat_read n d H FAnns (VAnns m) G) as [_ [_ A]].
    destruct m as [[|[s a] l0] o]; [contradiction|]. cbn [ents] in A. destruct (A s a (or_introl eq_refl)) as [P [O _]].
    assert (S : In (KStr s, untyped_to_yaml a) (field_segs to_yaml d FAnns)).
    { unfold field_segs. rewrite G. left. reflexivity. }
    destruct (written_in d n' FAnns _ _ Ht W ltac:(discriminate) S) as [l [k [v [-> [Hi [K V]]]]]].
    { eapply in_write_order; [exact (proj1 Ht)|exact G]. }
    cbn in K. injection K as <-. destruct (read_pair l d' _ _ R Hi) as [d1 [f [old [w [Z1 [S1 [T1 [G1 T2]]]]]]]].
    destruct d1 as [b|b x fs c sp]; [destruct d'; [reflexivity|discriminate S1]|]. exfalso.
    assert (Ef : f = FAnns).
    { rewrite target_unknown in T1; [|exact Z1|].
      - cbn in T1. destruct s as [|ch s]; [discriminate P|]. cbn in P, T1. rewrite P in T1. congruence.
      - cbn [value str_node]. intros K. apply known_no_paren in K. congruence. }
    subst f. cbn in G1. injection G1 as <-. cbn in T2.
    apply bind_ok in T2 as [m' [T2 _]]. apply read_amap_map in T2 as [t [l' [kvs [-> _]]]].
    unfold untyped_to_yaml, map_to_yaml in V. rewrite O in V. apply bind_ok in V as [y [_ V]]. discriminate V.
  Qed.

  Lemma string_keys n d f a : hat n = Ok d -> In a (field_keys d f) -> exists s, a = KStr s.
  Proof.
    intros H Hi. unfold field_keys in Hi. destruct (getf f d) as [v|] eqn:G; [|destruct Hi]. pose proof (hat_read n d H f v G) as R.
    destruct v; try (destruct f; try (destruct (is_default (d_kind d) _ _)); try (destruct Hi as [<-|[]]); try destruct Hi; eauto; fail).
    - apply in_map_iff in Hi as [s [<- _]]. eauto.
    - apply in_map_iff in Hi as [[k g] [<- Hi]]. destruct R as [_ R]. exact (proj1 (R k g Hi)).
  Qed.

  (** The XML settings are written as an empty map. *)
  Lemma xml_lost n d x n' d' : hat n = Ok d -> tidy d -> getf FXml d = Some (VXml (Some x)) ->
    to_yaml d = Ok n' -> hat n' = Ok d' -> getf FXml d' = Some (VXml (Some new_xml)) \/ getf FXml d' = None.
  Proof.
    intros H Ht G W R.
    destruct d' as [b|b y fs c sp]; [right; reflexivity|]. left.
    assert (S : In (KStr "xml", Ok (Map TMap [])) (field_segs to_yaml d FXml)).
    { unfold field_segs. rewrite G. left. reflexivity. }
    assert (Hw : In FXml (write_order (d_kind d))) by (eapply in_write_order; [exact (proj1 Ht)|exact G]).
    destruct (written_in d n' FXml _ _ Ht W ltac:(discriminate) S Hw) as [l [k [v [-> _]]]].
    destruct (written_order d l Ht W) as [O A]. pose proof (written_pairs d Ht) as P. rewrite W in P.
    destruct (is_short (segs to_yaml d)).
    { unfold type_node in P. destruct (b_kind (d_base d)); discriminate P. }
    symmetry in P. apply out_to_yaml_ok in P as [l' [E P]]. injection E as <-.
    assert (X : In (KStr "xml", Ok (Map TMap [])) (flat_map (field_segs to_yaml d) (write_order (d_kind d)))) by (apply in_flat_map; eauto).
    assert (Keys : map fst (flat_map (field_segs to_yaml d) (write_order (d_kind d))) = flat_map (field_keys d) (write_order (d_kind d))).
    { rewrite <- segs_fields by exact (proj1 Ht). apply segs_keys; apply Ht. }
    rewrite <- Keys in A.
    assert (Str : forall a r, In (a, r) (flat_map (field_segs to_yaml d) (write_order (d_kind d))) -> exists s, a = KStr s).
    { intros a r Hi. assert (Hk : In a (flat_map (field_keys d) (write_order (d_kind d)))).
      { rewrite <- Keys. apply in_map_iff. exists (a, r). auto. }
      apply in_flat_map in Hk as [f [_ Hk]]. exact (string_keys n d f a H Hk). }
    clear O Keys. revert X P A Str. generalize (flat_map (field_segs to_yaml d) (write_order (d_kind d))) as o.
    intros o X P A Str. apply in_split in X as [o1 [o2 ->]]. apply Forall2_app_inv_l in P as [l1 [l2 [P1 [P2 ->]]]].
    inversion P2 as [|e p o' l3 Pe P3]; subst. destruct p as [k0 v0]. destruct Pe as [K1 K2]. cbn in K1, K2. injection K1 as <-. injection K2 as <-.
    rewrite map_app in A. apply apart_app in A as [_ [A2 A3]]. cbn [map fst] in A2, A3.
    change ((KStr "xml" :: map fst o2)) with ([KStr "xml"] ++ map fst o2) in A2. apply apart_app in A2 as [_ [_ A2]].
    assert (M : forall o l, (forall a r, In (a, r) o -> exists s, a = KStr s) -> Forall2 wrote o l ->
      (forall a, In a (map fst o) -> gkey_eqb a (KStr "xml") = false) -> ~ mentions "xml" l).
    { clear. intros o l Str H N [e [He Ev]]. induction H as [|[a r] p o l [W1 W2] H IH]; [destruct He|].
      destruct He as [->|He].
      - cbn in W1. destruct (Str a r (or_introl eq_refl)) as [s ->]. cbn in W1. injection W1 as W1. rewrite <- W1 in Ev. cbn in Ev. subst s.
        specialize (N (KStr "xml") (or_introl eq_refl)). discriminate N.
      - apply IH; [|intros; apply N; right; assumption|exact He]. intros a' r' Hi. apply (Str a' r'). right. exact Hi. }
    destruct (facet_once TMap l1 (str_node "xml") (Map TMap []) l3 _ FXml ltac:(discriminate) R) as [w [D Gw]].
    - pose proof (hat_shaped _ _ R) as Hs. destruct (shaped_cases b y fs c sp Hs) as [N1 [N2 _]]. unfold d_kind; cbn [d_base].
      destruct (b_kind b); try congruence; cbn; tauto.
    - reflexivity.
    - apply (M o1); [|exact P1|].
      + intros a r Hi. apply (Str a r). apply in_or_app. left. exact Hi.
      + intros a Ha. apply A3; [exact Ha|left; reflexivity].
    - apply (M o2); [|exact P3|].
      + intros a r Hi. apply (Str a r). apply in_or_app. right. right. exact Hi.
      + intros a Ha. assert (E : gkey_eqb (KStr "xml") a = false) by (apply A2; [left; reflexivity|exact Ha]).
        destruct a; try reflexivity. cbn in E |- *. rewrite String.eqb_sym. exact E.
    - rewrite Gw. cbn in D. destruct D as [x' [D ->]]. cbn in D. injection D as <-. reflexivity.
  Qed.
End Lost.
