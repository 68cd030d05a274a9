(** Proofs that written libraries read back the same. *)
From Coq Require Import SpecFloat.
From Verif Require Import Base Num OMap OMapSpec Keys Yaml Values Assign Formats Meta Out Xml Example DataType Marshal Doc Api Library
  AssignProofs TypeFacts Fields FieldProofs FacetSpec FacetProofs DocProofs OrderProofs PathProofs Lens Segs ExProofs WriteProofs ReadInv Same ExRound TypeSegs WriteSpec
  RoundSpec RoundProofs WasRead Writable Parts ApiFields ApiSpec ApiProofs LibProofs ApiWrite ApiRoundSpec ApiRound.

Section WriteLib.
  Context {F : FloatIO}.

  Definition lib_seg (a : library) (f : lfield) : outm :=
    match f with
    | LUsage => opt_seg "usage" (str_opt (l_usage a))
    | LUses => if_seg (nonempty (l_uses a)) "uses" (string_map_node (l_uses a))
    | LSecuritySchemes => if_seg (nonempty (l_securitySchemes a)) "securitySchemes" (untyped_to_yaml (l_securitySchemes a))
    | LTraits => if_seg (nonempty (l_traits a)) "traits" (untyped_to_yaml (l_traits a))
    | LAnnotationTypes => if_seg (nonempty (l_annotationTypes a)) "annotationTypes" (untyped_to_yaml (l_annotationTypes a))
    | LAnnotations => all_seg KStr untyped_to_yaml (ents (l_annotations a))
    | LResourceTypes => if_seg (nonempty (l_resourceTypes a)) "resourceTypes" (untyped_to_yaml (l_resourceTypes a))
    | LExtra => all_seg (fun k => k) to_node (ents (l_extra a))
    | LTypes => if_seg (nonempty (l_types a)) "types" (types_to_yaml to_yaml (l_types a))
    end.

  Lemma lib_out_segs a : lib_out a = puts_all (flat_map (lib_seg a) lib_order) [].
  Proof.
    unfold lib_out. rewrite !oput_opt_puts, !oput_if_puts, !oput_all_puts.
    cbn [lib_order flat_map]. rewrite !puts_all_app. reflexivity.
  Qed.

  Lemma lib_seg_keys a f : map fst (lib_seg a f) = lib_field_keys a f.
  Proof.
    destruct f; cbn [lib_seg lib_field_keys]; unfold lib_once.
    all: try (unfold str_opt; rewrite opt_keys; match goal with |- context [option_map _ ?o] => destruct o end; reflexivity).
    all: try (unfold if_seg, nonempty, filled_in; match goal with |- context [ents ?o] => destruct (ents o) end; reflexivity).
    all: unfold all_seg; rewrite !map_map; reflexivity.
  Qed.

  Lemma lib_order_nodup : NoDup lib_order.
  Proof. unfold lib_order. repeat constructor; cbn; intuition discriminate. Qed.
  Lemma lib_order_all f : In f lib_order.
  Proof. destruct f; cbn; tauto. Qed.

  Definition lib_free (f : lfield) : bool := match f with LAnnotations | LExtra => true | _ => false end.

  Lemma lib_named_keys a f k : lib_free f = false -> In k (lib_field_keys a f) -> k = KStr (lib_key f) /\ lib_key f <> "".
  Proof.
    intros Hf H. destruct f; cbn in Hf; try discriminate Hf; cbn [lib_field_keys] in H; unfold lib_once in H;
      try match type of H with In _ (if ?b then _ else _) => destruct b end; cbn in H; try (destruct H as [<-|H]; [split; [reflexivity|discriminate]|]); destruct H.
  Qed.

  Lemma lib_tidy_apart a : lib_tidy a -> apart (flat_map (lib_field_keys a) lib_order) = true.
  Proof.
    intros [T1 [T2 [T4 T5]]]. apply apart_flat_map; [apply lib_order_nodup| |].
    - intros f _. destruct (lib_free f) eqn:Ef.
      + destruct f; try discriminate Ef; cbn [lib_field_keys]; [apply apart_strings; exact T1|exact T2].
      + destruct f; try discriminate Ef; cbn [lib_field_keys]; unfold lib_once; match goal with |- context [if ?b then _ else _] => destruct b end; reflexivity.
    - intros f g x y _ _ N Hx Hy.
      assert (S : forall f x, lib_free f = true -> In x (lib_field_keys a f) -> f = LExtra /\ In x (map fst (ents (l_extra a))) \/
        exists s, x = KStr s /\ f = LAnnotations /\ In s (map fst (ents (l_annotations a)))).
      { clear. intros f x Ef H. destruct f; try discriminate Ef; cbn [lib_field_keys] in H.
        - right. apply in_map_iff in H as [s [<- H]]. eauto.
        - auto. }
      destruct (lib_free f) eqn:Ef, (lib_free g) eqn:Eg.
      + apply (S f x Ef) in Hx. apply (S g y Eg) in Hy.
        destruct Hx as [[-> Hx]|[s [-> [-> Hx]]]], Hy as [[-> Hy]|[t [-> [-> Hy]]]]; try congruence.
        * apply (apart_extra _ t (T5 t Hy) x Hx).
        * apply (apart_extra _ s (T5 s Hx) y Hy).
      + apply (S f x Ef) in Hx. apply (lib_named_keys a g y Eg) in Hy as [-> Ng]. destruct (T4 g (lib_order_all g) Ng) as [U1 U2].
        destruct Hx as [[-> Hx]|[s [-> [-> Hx]]]].
        * apply (apart_extra _ _ U2 x Hx).
        * apply gkey_str_neq. intros ->. contradiction.
      + apply (S g y Eg) in Hy. apply (lib_named_keys a f x Ef) in Hx as [-> Nf]. destruct (T4 f (lib_order_all f) Nf) as [U1 U2].
        destruct Hy as [[-> Hx]|[s [-> [-> Hx]]]].
        * apply (apart_extra _ _ U2 y Hx).
        * apply gkey_str_neq. intros E. rewrite <- E in Hx. contradiction.
      + apply (lib_named_keys a f x Ef) in Hx as [-> Nf]. apply (lib_named_keys a g y Eg) in Hy as [-> Ng].
        apply gkey_str_neq. intros E. apply N. revert E. destruct f; try discriminate Ef; destruct g; try discriminate Eg; cbn; try reflexivity; discriminate.
  Qed.

  Lemma lib_written_iff a n : lib_tidy a -> (lib_marshal a = Ok n <-> exists l, n = Map TMap l /\ Forall2 wrote (flat_map (lib_seg a) lib_order) l).
  Proof.
    intros H. unfold lib_marshal. rewrite lib_out_segs, puts_fresh_nil; [apply out_to_yaml_ok|]. rewrite map_flat_map.
    rewrite (flat_map_ext _ (lib_field_keys a)) by (intros f; apply lib_seg_keys). apply lib_tidy_apart. exact H.
  Qed.

  Lemma lib_written a l : lib_tidy a -> lib_marshal a = Ok (Map TMap l) ->
    Forall2 (fun k p => key_node k = Ok (fst p)) (flat_map (lib_field_keys a) lib_order) l /\ apart (flat_map (lib_field_keys a) lib_order) = true.
  Proof.
    intros Ht H. apply (lib_written_iff a _ Ht) in H as [l' [E H]]. injection E as <-. split; [|exact (lib_tidy_apart a Ht)].
    rewrite <- (flat_map_ext _ _ (lib_seg_keys a)), <- map_flat_map. apply (proj2 (Forall2_map_l _ _ _ _)). eapply Forall2_impl; [|exact H].
    intros e p [X _]. exact X.
  Qed.

  Lemma lib_section_mine f s l : In (s, f) lib_keys -> f <> LAnnotations -> (forall p : node * node, In p l -> fst p = str_node s) ->
    forall e, In e l -> lib_mine f e = true.
  Proof.
    intros Hi N' H [k n] He. apply H in He. cbn in He. subst k. destruct (lfield_dec f LTypes) as [->|N].
    - rewrite lib_mine_types. cbn in Hi. unfold lib_types_key, text_key. cbn.
      intuition (try discriminate); match goal with E : (_, _) = (_, _) |- _ => injection E as <- end; reflexivity.
    - rewrite (lib_mine_named f s _ Hi N N'). unfold text_key. cbn. apply String.eqb_refl.
  Qed.

  Lemma lib_back a : lib_returns a ->
    exists l a', Forall2 wrote (flat_map (lib_seg a) lib_order) l /\ fold_res lib_assign new_library l = Ok a' /\ same_library a a'.
  Proof.
    intros (Ht & Hu & Hs & Htr & Hrt & Hat & Hty & Han & Hx & Hx2).
    destruct (parts_round lty lget lset lfield_dec lib_target lib_step lib_assign lib_assign_step lget_lset_same lget_lset_other
      wrote (lib_seg a) lib_order (fun f v => same_lfield f (lget f a) v) new_library lib_order_nodup lib_order_all) as [l [a' [A [B C]]]].
    2:{ exists l, a'. auto. }
    intros f. destruct f; cbn [lib_seg lget].
    - destruct (l_usage a) as [u|] eqn:E.
      + exists [(str_node "usage", str_node u)]. split; [constructor; [split; reflexivity|constructor]|].
        split; [intros e [<-|[]]; reflexivity|]. eexists. split; [reflexivity|reflexivity].
      + exists []. split; [constructor|]. split; [intros e []|]. eexists. split; reflexivity.
    - destruct (uses_section "uses" _ Hu) as [l [A [B C]]]. exists l. split; [exact A|]. split; [|exact C].
      apply (lib_section_mine LUses "uses"); [cbn; tauto|discriminate|exact B].
    - destruct (untyped_section "securitySchemes" _ Hs) as [l [A [B C]]]. exists l. split; [exact A|]. split; [|exact C].
      apply (lib_section_mine LSecuritySchemes "securitySchemes"); [cbn; tauto|discriminate|exact B].
    - destruct (untyped_section "traits" _ Htr) as [l [A [B C]]]. exists l. split; [exact A|]. split; [|exact C].
      apply (lib_section_mine LTraits "traits"); [cbn; tauto|discriminate|exact B].
    - unfold nonempty. rewrite Hat. exists []. split; [constructor|]. split; [intros e []|]. eexists. split; [reflexivity|].
      cbn. unfold same_map. rewrite Hat. constructor.
    - destruct (entries_back (lib_step LAnnotations) read_annotation untyped_to_yaml (same_map same_value) false (ents (l_annotations a))) as [l [kvs [A [B [C D]]]]].
      + intros m k n w Hi H. apply keys_in in Hi as [v Hi]. rewrite Forall_forall in Han. apply Han in Hi as [Hi _]. cbn in Hi.
        cbn [lib_step snd fst value str_node]. destruct (String.eqb_spec k "annotationTypes") as [->|_]; [discriminate Hi|]. rewrite H. reflexivity.
      + apply Ht.
      + eapply Forall_impl; [|exact Han]. intros e [_ H]. apply ann_written in H as [n [w [H1 [H2 H3]]]]. eauto.
      + exists l. split; [exact A|]. split.
        * intros [k n] He. destruct (B _ He) as [s [E Hi]]. cbn in E. subst k.
          apply keys_in in Hi as [v Hi]. rewrite Forall_forall in Han. apply Han in Hi as [Hi _]. cbn in Hi.
          rewrite lib_mine_annotations; [exact Hi|]. unfold text_key. cbn. apply String.eqb_neq. intros ->. discriminate Hi.
        * exists (mkMap kvs false). split; [exact C|]. exact D.
    - destruct (untyped_section "resourceTypes" _ Hrt) as [l [A [B C]]]. exists l. split; [exact A|]. split; [|exact C].
      apply (lib_section_mine LResourceTypes "resourceTypes"); [cbn; tauto|discriminate|exact B].
    - assert (Hx' : Forall (fun e : gkey * gval => key_returns (fst e) /\ has_node (snd e)) (ents (l_extra a))).
      { eapply Forall_impl; [|exact Hx]. intros e [H1 [H2 _]]. auto. }
      destruct (extras_back false (ents (l_extra a)) (proj1 (proj2 Ht)) Hx') as [l [kvs [A [B [C D]]]]].
      exists l. split; [exact A|]. split; [|exists (mkMap kvs false); split; [exact C|exact D]].
      intros e He. destruct (B e He) as [k [E1 [E2 Hi]]]. rewrite lib_mine_extra. unfold lib_extra_key, is_annotation_key.
      apply keys_in in Hi as [v Hi]. unfold extras_return in Hx. rewrite Forall_forall in Hx, Hx2. destruct (Hx _ Hi) as [_ [_ Hb]].
      pose proof (Hx2 _ Hi _ E1) as Hv. apply negb_true_iff. apply orb_false_iff. split; [apply orb_false_iff; split|].
      + destruct (existsb (String.eqb (value (fst e))) lib_names) eqn:X; [|reflexivity]. apply existsb_exists in X as [y [X1 X2]].
        apply String.eqb_eq in X2. subst y. contradiction.
      + destruct (is_string (fst e)) eqn:Es; [|reflexivity]. cbn [andb].
        assert (Ek : k = KStr (value (fst e))).
        { destruct (fst e) as [t w| |]; try discriminate E2. destruct t; try discriminate Es. cbn in E2. injection E2 as <-. reflexivity. }
        specialize (Hb _ Ek). change (starts_paren (value (fst e)) = false). destruct (starts_paren (value (fst e))); tauto.
      + destruct (is_string (fst e)) eqn:Es; [|reflexivity]. cbn [andb].
        assert (Ek : k = KStr (value (fst e))).
        { destruct (fst e) as [t w| |]; try discriminate E2. destruct t; try discriminate Es. cbn in E2. injection E2 as <-. reflexivity. }
        specialize (Hb _ Ek). apply String.eqb_neq. intros X. apply Hb. left. exact X.
    - destruct (types_section "types" _ Hty) as [l [A [B C]]]. exists l. split; [exact A|]. split; [|exact C].
      apply (lib_section_mine LTypes "types"); [cbn; tauto|discriminate|exact B].
  Qed.

  Lemma lib_round_trip a : lib_returns a -> exists n a', lib_marshal a = Ok n /\ lib_unmarshal n new_library = Ok a' /\ same_library a a'.
  Proof.
    intros H. destruct (lib_back a H) as [l [a' [A [B C]]]]. exists (Map TMap l), a'. split; [|split; [exact B|exact C]].
    apply lib_written_iff; [exact (proj1 H)|]. eauto.
  Qed.

  (** What was read is tidy. *)
  Lemma lib_extras_read l a : fold_res lib_assign new_library l = Ok a ->
    apart (map fst (ents (l_extra a))) = true /\ forall s, In (KStr s) (map fst (ents (l_extra a))) -> s <> "" /\ starts_paren s = false /\ ~ In s lib_names.
  Proof.
    intros H. pose proof (lib_fold l new_library a H LExtra) as X. rewrite (filter_eq _ _ l lib_mine_extra) in X.
    pose proof (extra_read _ _ _ (fold_extra_entries _ _ _ X)) as [X1 X2]. split; [exact X1|].
    intros s Hs. apply keys_in in Hs as [v Hs]. apply X2 in Hs as [p [_ [Hp [E _]]]]. apply scalar_str in E as [E1 E2].
    unfold lib_extra_key, is_annotation_key in Hp. rewrite E1, E2 in Hp. cbn [andb] in Hp. apply negb_true_iff in Hp.
    apply orb_false_iff in Hp as [Hp H3]. apply orb_false_iff in Hp as [H1 H2]. split; [apply String.eqb_neq; exact H3|]. split; [exact H2|].
    intros Hi. assert (existsb (String.eqb s) lib_names = true); [|congruence].
    apply existsb_exists. exists s. split; [exact Hi|apply String.eqb_refl].
  Qed.
End WriteLib.
