(** Load, edit, save, load again (C65). *)
From Coq Require Import SpecFloat.
From Verif Require Import Base Num OMap OMapSpec Keys Yaml Values Assign Formats Meta Out Xml Example DataType Marshal Doc Api Library
  AssignProofs TypeFacts Fields FieldProofs FacetSpec FacetProofs DocProofs OrderProofs PathProofs Lens Segs ExProofs WriteProofs ReadInv Same ExRound TypeSegs WriteSpec
  RoundSpec RoundProofs WasRead Writable Stable Crash Parts ApiFields ApiSpec ApiProofs LibProofs ApiWrite ApiRoundSpec ApiRound LibRound ApiOrder ApiReadRound
  LibReadRound Setters SetterSpec SetterProofs EditSpec.

Section EditSave.
  Context {F : FloatIO}.

  (** ** Type definitions *)

  Lemma names_known d s : (forall v, getf FDefault d <> Some (VOptVal (Some v))) -> In s (field_names d) -> In s (known_keys (d_kind d)).
  Proof.
    intros N H. unfold field_names in H. apply in_flat_map in H as [f [Hf H]]. destruct (field_dec f FDefault) as [->|D].
    - destruct (getf FDefault d) as [[]|]; try destruct H as []. destruct o as [v|]; [destruct (N v eq_refl)|destruct H].
    - destruct (d_kind d); cbn in Hf; repeat destruct Hf as [<-|Hf]; try destruct Hf; try congruence; cbn in H |- *; tauto.
  Qed.

  Lemma returns_tidy P d : shaped d -> (forall f v, getf f d = Some v -> field_returns P (d_kind d) f v) ->
    apart (extra_keys d) = true -> NoDup (ann_keys_of d) -> tidy d.
  Proof.
    intros S H E A.
    assert (X : forall s, In (KStr s) (extra_keys d) -> (d_kind d <> TyNil -> starts_paren s = false) /\ ~ In s (known_keys (d_kind d))).
    { intros s Hs. unfold extra_keys in Hs. pose proof (H FExtra _ (getf_extra d)) as R. inversion R as [| | | | | | | | | | | | | | | | m Hm]; subst m.
      apply in_map_iff in Hs as [[a v] [Ea Hi]]. destruct (Hm a v Hi) as [s' [n [E1 [_ [E2 E3]]]]]. cbn in Ea. rewrite E1 in Ea. injection Ea as ->.
      split; [intros Nn; apply E2; exact Nn|exact E3]. }
    assert (Y : forall s, In s (ann_keys_of d) -> starts_paren s = true).
    { intros s Hs. unfold ann_keys_of in Hs. destruct (getf FAnns d) as [v|] eqn:G; [|destruct Hs]. destruct v; try destruct Hs.
      pose proof (H _ _ G) as R. inversion R as [| | | | | | | | | | | | m' Hm| | | |]; subst m'.
      apply in_map_iff in Hs as [[a w] [Ea Hi]]. cbn in Ea. subst a. exact (proj1 (Hm _ _ Hi)). }
    assert (D : forall v, getf FDefault d <> Some (VOptVal (Some v))).
    { intros v G. pose proof (H _ _ G) as R. inversion R as [| | | | | | | o Ho| | | | | | | | |]; subst o. destruct (Ho v eq_refl) as [C _]. congruence. }
    split; [exact S|]. split; [|split; [exact E|split; [exact A|split]]].
    - intros z G. pose proof (H _ _ G) as R. inversion R; lia.
    - intros s Hs. apply (names_known d s D) in Hs. split; intros C.
      + apply X in C. tauto.
      + apply Y in C. apply known_no_paren in Hs. congruence.
    - intros s Hs C. apply X in C as [C _]. pose proof (Y s Hs) as Ps. rewrite C in Ps; [discriminate Ps|].
      intros K. unfold ann_keys_of in Hs. destruct d as [b|b x fs c p]; [destruct Hs|]. destruct (shaped_cases b x fs c p S) as [M _]. exact (M K).
  Qed.

  Lemma extra_keys_get d m : getf FExtra d = Some (VExtra m) -> extra_keys d = map fst (ents m).
  Proof. rewrite getf_extra. intros E. injection E as <-. reflexivity. Qed.

  Lemma apply_returns op d : type_returns d -> type_saves (d_kind d) op -> type_returns (type_apply op d).
  Proof.
    intros H [H1 [H2 H3]]. destruct H as [d T N I Fd]. pose proof (proj1 T) as S.
    destruct (type_keeps (d_kind d) op d (conj S eq_refl)) as [S' K'].
    assert (O : forall f, getf f (type_apply op d) = match says_type (d_kind d) f op with Some v => v | None => getf f d end)
      by (intros f; apply type_one; auto).
    assert (Fd' : forall f v, getf f (type_apply op d) = Some v -> field_returns type_returns (d_kind d) f v).
    { intros f v G. rewrite O in G. unfold says_type, field_eqb in G. destruct (field_dec (fst (sets (d_kind d) op)) f) as [<-|Ne]; [|auto].
      injection G as <-. exact H2. }
    assert (Kn : d_kind d <> TyInclude) by (intros Q; rewrite Q in H1; destruct op; discriminate H1).
    destruct T as [_ [_ [T3 [T4 _]]]].
    constructor; rewrite ?K'; [|intros _|congruence|exact Fd'].
    - apply (returns_tidy type_returns); [exact S'|rewrite K'; exact Fd'| |].
      + pose proof (O FExtra) as G. unfold says_type, field_eqb in G. destruct (field_dec (fst (sets (d_kind d) op)) FExtra) as [E|E].
        * destruct op; try discriminate E; try (destruct (d_kind d); discriminate E); cbn [sets fst snd] in G.
          -- destruct m as [m|]; rewrite (extra_keys_get _ _ G); [exact H3|reflexivity].
          -- rewrite (extra_keys_get _ _ G). reflexivity.
        * rewrite getf_extra in G. symmetry in G. unfold extra_keys in *. rewrite getf_extra in G. injection G as <-. exact T3.
      + pose proof (O FAnns) as G. unfold says_type, field_eqb in G. unfold ann_keys_of in *. rewrite G. destruct (field_dec (fst (sets (d_kind d) op)) FAnns) as [E|E].
        * destruct op; try discriminate E; try (destruct (d_kind d); discriminate E); cbn [sets fst snd].
          -- destruct m as [m|]; [exact H3|constructor].
          -- constructor.
        * exact T4.
    - pose proof (O FType) as G. unfold says_type, field_eqb in G. rewrite getf_type in G. destruct (field_dec (fst (sets (d_kind d) op)) FType) as [E|E].
      + destruct op; try discriminate E; try (destruct (d_kind d); discriminate E). cbn [sets fst snd] in G. injection G as ->. exact H3.
      + rewrite getf_type in G. injection G as ->. exact (N Kn).
  Qed.

  Lemma run_returns ops : forall d, type_returns d -> Forall (type_saves (d_kind d)) ops -> type_returns (run type_apply ops d).
  Proof.
    induction ops as [|op ops IH]; intros d H Ho; [exact H|]. inversion Ho as [|x l H1 H2]; subst. cbn [run fold_left]. fold (run type_apply ops (type_apply op d)).
    apply IH; [apply apply_returns; assumption|]. rewrite type_kind. exact H2.
  Qed.

  Lemma edit_save d ops : type_returns d -> Forall (type_saves (d_kind d)) ops ->
    exists n d', to_yaml (run type_apply ops d) = Ok n /\ hat n = Ok d' /\ d_kind d' = d_kind d /\
      forall f, exists v, last_setter (says_type (d_kind d) f) ops (getf f d) v /\ same_answer (d_kind d) v (getf f d').
  Proof.
    intros H Ho. pose proof (run_returns ops d H Ho) as R. destruct (round_trip _ R) as [[n [d' [W [Rd Sm]]]] _].
    exists n, d'. split; [exact W|]. split; [exact Rd|]. inversion Sm as [x y K A B]; subst. rewrite type_setters_kind in *. split; [congruence|].
    intros f. exists (getf f (run type_apply ops d)). split.
    - apply type_setters; [destruct H as [d T]; exact (proj1 T)|reflexivity|]. eapply Forall_impl; [|exact Ho]. intros op [X _]. exact X.
    - destruct (getf f (run type_apply ops d)) as [v|] eqn:G.
      + destruct (A f v G) as [w [-> Sw]]. exact Sw.
      + rewrite (B f G). exact I.
  Qed.

  Lemma load_edit_save n d ops : hat n = Ok d -> settled d -> Forall (type_saves (d_kind d)) ops ->
    exists n' d', to_yaml (run type_apply ops d) = Ok n' /\ hat n' = Ok d' /\ d_kind d' = d_kind d /\
      forall f, exists v, last_setter (says_type (d_kind d) f) ops (getf f d) v /\ same_answer (d_kind d) v (getf f d').
  Proof. intros H S. apply edit_save. eapply settled_returns; eassumption. Qed.

  (** ** API documents *)

  Lemma blank_section {V} (P : V -> Prop) : section_returns P blank.
  Proof. split; [intros C; destruct (C eq_refl)|]. split; constructor. Qed.
  Lemma blank_annotations : annotations_save blank.
  Proof. split; constructor. Qed.

  Lemma names_no_paren f : starts_paren (api_key f) = false.
  Proof. destruct f; reflexivity. Qed.
  Lemma lib_names_no_paren f : starts_paren (lib_key f) = false.
  Proof. destruct f; reflexivity. Qed.

  Lemma api_annotations_returns m a : api_returns a -> annotations_save m -> api_returns (a_set_annotations m a).
  Proof.
    intros [T [R1 [R2 [R3 [R4 [R5 [R6 [R7 [R8 [R9 [R10 R11]]]]]]]]]]] [M1 M2].
    destruct T as [T1 [T2 [T3 [T4 [T5 T6]]]]]. destruct a. cbn in *.
    assert (Mp : forall s, In s (map fst (ents m)) -> starts_paren s = true).
    { intros s Hs. apply in_map_iff in Hs as [e [<- He]]. rewrite Forall_forall in M2. exact (proj1 (M2 e He)). }
    split; [|cbn; auto 20]. repeat split; cbn; auto.
    - intros C. apply Mp in C. rewrite names_no_paren in C. discriminate.
    - exact (proj1 (proj2 (T4 f H H0))).
    - exact (proj2 (proj2 (T4 f H H0))).
    - intros C. apply in_map_iff in C as [e [E He]]. unfold extras_return in R11. rewrite Forall_forall in R11. destruct (R11 e He) as [_ [_ B]]. apply (B s E).
      right. left. auto.
    - intros C. apply in_map_iff in C as [e [<- He]]. rewrite Forall_forall in R10. destruct (R10 e He) as [B _]. apply Mp in H.
      destruct (fst e) as [|c r]; [discriminate|]. cbn in H, B. destruct (Ascii.eqb_spec c "("); [subst c; discriminate|discriminate].
  Qed.

  Lemma api_apply_returns op a : api_returns a -> api_saves op -> api_returns (api_apply op a).
  Proof.
    intros R S.
    destruct op; try (apply api_annotations_returns; [exact R|destruct m as [m|]; [exact S|exact blank_annotations]]);
      try (apply api_annotations_returns; [exact R|exact blank_annotations]).
    all: destruct R as [T [R1 [R2 [R3 [R4 [R5 [R6 [R7 [R8 [R9 [R10 R11]]]]]]]]]]];
      (split; [exact T|]);
      repeat match goal with |- _ /\ _ => split end;
      first [assumption|apply blank_section|apply Forall_nil|match goal with m : option _ |- _ => destruct m; [exact S|apply blank_section] end].
  Qed.

  Lemma api_run_returns ops : forall a, api_returns a -> Forall api_saves ops -> api_returns (run api_apply ops a).
  Proof.
    induction ops as [|op ops IH]; intros a H Ho; [exact H|]. inversion Ho as [|x l H1 H2]; subst. cbn [run fold_left]. fold (run api_apply ops (api_apply op a)).
    apply IH; [apply api_apply_returns; assumption|exact H2].
  Qed.

  Lemma api_edit_save a ops : api_returns a -> Forall api_saves ops ->
    exists n a', api_marshal (run api_apply ops a) = Ok n /\ api_unmarshal n new_api = Ok a' /\
      forall f, exists v, last_setter (says_api f) ops (aget f a) v /\ same_afield f v (aget f a').
  Proof.
    intros H Ho. destruct (api_round_trip _ (api_run_returns ops a H Ho)) as [n [a' [W [R S]]]].
    exists n, a'. split; [exact W|]. split; [exact R|]. intros f. exists (aget f (run api_apply ops a)). split; [apply api_setters|exact (S f)].
  Qed.

  Lemma api_load_edit_save t l a ops : api_unmarshal (Map t l) new_api = Ok a ->
    Forall (fun p => is_string (fst p) = true /\ is_annotation_key (fst p) = false /\ named_key "documentation" p = false) l ->
    Forall (fun e => settled (snd e)) (ents (a_types a)) -> Forall api_saves ops ->
    exists n a', api_marshal (run api_apply ops a) = Ok n /\ api_unmarshal n new_api = Ok a' /\
      forall f, exists v, last_setter (says_api f) ops (aget f a) v /\ same_afield f v (aget f a').
  Proof.
    intros H Hl Ht. apply api_edit_save. apply api_read_iff in H as [_ H]. apply (api_read_returns l a H); try assumption.
    all: eapply Forall_impl; [|exact Hl]; cbn; tauto.
  Qed.

  (** ** Libraries *)

  Lemma lib_annotations_returns m a : lib_returns a -> annotations_save m -> lib_returns (l_set_annotations m a).
  Proof.
    intros [T [R1 [R2 [R3 [R4 [R5 [R6 [R7 [R8 R9]]]]]]]]] [M1 M2].
    destruct T as [T1 [T2 [T3 T4]]]. destruct a. cbn in *.
    assert (Mp : forall s, In s (map fst (ents m)) -> starts_paren s = true).
    { intros s Hs. apply in_map_iff in Hs as [e [<- He]]. rewrite Forall_forall in M2. exact (proj1 (M2 e He)). }
    split; [|cbn; auto 20]. repeat split; cbn; auto.
    - intros C. apply Mp in C. rewrite lib_names_no_paren in C. discriminate.
    - exact (proj2 (T3 f H H0)).
    - intros s Hs C. apply in_map_iff in C as [e [E He]]. unfold extras_return in R8. rewrite Forall_forall in R8. destruct (R8 e He) as [_ [_ B]]. apply (B s E).
      right. auto.
  Qed.

  Lemma lib_apply_returns op a : lib_returns a -> lib_saves op -> lib_returns (lib_apply op a).
  Proof.
    intros R S.
    destruct op; try (apply lib_annotations_returns; [exact R|destruct m as [m|]; [exact S|exact blank_annotations]]);
      try (apply lib_annotations_returns; [exact R|exact blank_annotations]).
    all: destruct R as [T [R1 [R2 [R3 [R4 [R5 [R6 [R7 [R8 R9]]]]]]]]];
      (split; [exact T|]);
      repeat match goal with |- _ /\ _ => split end;
      first [assumption|apply blank_section|apply Forall_nil|match goal with m : option _ |- _ => destruct m; [exact S|apply blank_section] end].
  Qed.

  Lemma lib_run_returns ops : forall a, lib_returns a -> Forall lib_saves ops -> lib_returns (run lib_apply ops a).
  Proof.
    induction ops as [|op ops IH]; intros a H Ho; [exact H|]. inversion Ho as [|x l H1 H2]; subst. cbn [run fold_left]. fold (run lib_apply ops (lib_apply op a)).
    apply IH; [apply lib_apply_returns; assumption|exact H2].
  Qed.

  Lemma lib_edit_save a ops : lib_returns a -> Forall lib_saves ops ->
    exists n a', lib_marshal (run lib_apply ops a) = Ok n /\ lib_unmarshal n new_library = Ok a' /\
      forall f, exists v, last_setter (says_lib f) ops (lget f a) v /\ same_lfield f v (lget f a').
  Proof.
    intros H Ho. destruct (lib_round_trip _ (lib_run_returns ops a H Ho)) as [n [a' [W [R S]]]].
    exists n, a'. split; [exact W|]. split; [exact R|]. intros f. exists (lget f (run lib_apply ops a)). split; [apply lib_setters|exact (S f)].
  Qed.

  Lemma lib_load_edit_save t l a ops : lib_unmarshal (Map t l) new_library = Ok a ->
    Forall (fun p => is_string (fst p) = true /\ is_annotation_key (fst p) = false /\ text_key "annotationTypes" p = false) l ->
    Forall (fun e => settled (snd e)) (ents (l_types a)) -> Forall lib_saves ops ->
    exists n a', lib_marshal (run lib_apply ops a) = Ok n /\ lib_unmarshal n new_library = Ok a' /\
      forall f, exists v, last_setter (says_lib f) ops (lget f a) v /\ same_lfield f v (lget f a').
  Proof.
    intros H Hl Ht. assert (Hn : Forall (fun p => text_key "annotationTypes" p = false) l) by (eapply Forall_impl; [|exact Hl]; cbn; tauto).
    apply lib_edit_save. assert (H' := H). apply (lib_read_iff t l a Hn) in H as [_ H]. apply (lib_read_returns l a H); try assumption.
    all: eapply Forall_impl; [|exact Hl]; cbn; tauto.
  Qed.
End EditSave.
