(** C29: where reading can panic. *)
From Coq Require Import SpecFloat.
From Verif Require Import Base Num OMap OMapSpec Keys Yaml Values Assign Formats Meta Out Xml Example DataType
  AssignProofs TypeFacts Fields FieldProofs FacetSpec FacetProofs DocProofs.

(** A mapping with an empty string for a key. *)
Definition empty_key (n : node) : Prop := exists t l k v, n = Map t l /\ In (k, v) l /\ node_tag k = TStr /\ value k = "".

(** The value of a key, and the values of a mapping. *)
Definition under (s : string) (n m : node) : Prop := exists t l k, n = Map t l /\ In (k, m) l /\ value k = s.
Definition child (n m : node) : Prop := exists t l k, n = Map t l /\ In (k, m) l.

(** The places of a type definition at which reading it can panic: an empty key in the definition, in an example, or in a type inside it;
    a property that is a nil or an include type. *)
Inductive crash {F : FloatIO} : node -> Prop :=
| crash_key n : empty_key n -> crash n
| crash_example n m : under "example" n m -> empty_key m -> crash n
| crash_examples n m e : under "examples" n m -> child m e -> empty_key e -> crash n
| crash_items n m : under "items" n m -> crash m -> crash n
| crash_property n m p : under "properties" n m -> child m p -> crash p -> crash n
| crash_base n m p d : under "properties" n m -> child m p -> hat p = Ok d -> d_kind d = TyNil \/ d_kind d = TyInclude -> crash n
| crash_facet n m a p : under "facets" n m -> child m a -> child a p -> crash p -> crash n.

Lemma fold_panic {A S} (f : S -> A -> res S) l : forall s, fold_res f s l = Panic ->
  exists pre e post s', l = pre ++ e :: post /\ fold_res f s pre = Ok s' /\ f s' e = Panic.
Proof.
  induction l as [|a l IH]; intros s H; [discriminate H|]. cbn in H. destruct (f s a) as [s1| |] eqn:E; cbn in H; try discriminate H.
  - destruct (IH s1 H) as [pre [e [post [s' [-> [H1 H2]]]]]]. exists (a :: pre), e, post, s'. split; [reflexivity|]. split; [|exact H2].
    cbn. rewrite E. exact H1.
  - exists [], a, l, s. auto.
Qed.

Lemma fold_panic_in {A S} (f : S -> A -> res S) l s : fold_res f s l = Panic -> exists e s', In e l /\ f s' e = Panic.
Proof.
  intros H. destruct (fold_panic f l s H) as [pre [e [post [s' [-> [_ H']]]]]]. exists e, s'. split; [|exact H']. apply in_or_app. right. left. reflexivity.
Qed.

Lemma read_amap_panic {V} (dec : node -> res V) m n : read_amap dec m n = Panic -> exists v, child n v /\ dec v = Panic.
Proof.
  unfold read_amap, map_fold. destruct n as [| |t l]; try discriminate. intros H. apply fold_panic_in in H as [[k v] [m' [Hi H]]].
  unfold read_amap_pair in H. cbn [fst snd] in H. apply bind_panic in H as [H|[s [_ H]]]; [destruct (to_str_not_panic _ H)|].
  apply bind_panic in H as [H|[s' [_ H]]]; [|discriminate H]. exists v. split; [exists t, l, k; auto|exact H].
Qed.

Lemma annotation_not_panic n : read_annotation n <> Panic.
Proof. intros H. apply read_amap_panic in H as [v [_ H]]. discriminate H. Qed.

Lemma is_string_tag n : is_string n = true <-> node_tag n = TStr.
Proof. unfold is_string. destruct (node_tag n); split; congruence. Qed.

Lemma run_assign_panic {A} (r : A * res unit) : run_assign r = Panic -> snd r = Panic.
Proof. unfold run_assign. destruct r as [a [u| |]]; cbn; congruence. Qed.

Section Crash.
  Context {F : FloatIO}.

  Lemma ex_val_not_panic k n : ex_val k n <> Panic.
  Proof.
    destruct k; cbn; try discriminate; intros H;
      try (apply bind_panic in H as [H|[x [_ H]]]; [|discriminate H]);
      try (destruct (to_str_not_panic _ H)); try (destruct (to_bool_not_panic _ H)); try (destruct (to_int_not_panic _ H));
      try (destruct (to_float_not_panic _ H)); destruct n; discriminate H.
  Qed.

  Lemma ex_assign_panic k e p : ex_assign k e p = Panic -> node_tag (fst p) = TStr /\ value (fst p) = "".
  Proof.
    unfold ex_assign. destruct (negb (is_string (fst p))) eqn:Es.
    { intros H. apply bind_panic in H as [H|[x [_ H]]]; [destruct (to_scalar_not_panic _ H)|discriminate H]. }
    apply negb_false_iff, is_string_tag in Es. destruct (value (fst p)) as [|c r]; [auto|]. intros H. exfalso.
    destruct (Ascii.eqb c "("); [|destruct (String.eqb _ _); [|destruct (String.eqb _ _); [|destruct (String.eqb _ _); [|destruct (String.eqb _ _)]]]];
      apply bind_panic in H as [H|[x [_ H]]]; try discriminate H.
    - exact (annotation_not_panic _ H).
    - unfold as_string_ptr in H. rewrite run_assign_with in H. apply bind_panic in H as [H|[x [_ H]]]; [exact (to_str_not_panic _ H)|discriminate H].
    - unfold as_string_ptr in H. rewrite run_assign_with in H. apply bind_panic in H as [H|[x [_ H]]]; [exact (to_str_not_panic _ H)|discriminate H].
    - unfold as_bool in H. rewrite run_assign_with in H. apply bind_panic in H as [H|[x [_ H]]]; [exact (to_bool_not_panic _ H)|discriminate H].
    - exact (ex_val_not_panic _ _ H).
    - exact (to_scalar_not_panic _ H).
  Qed.

  Lemma read_ex_panic k n : read_ex k n = Panic -> empty_key n.
  Proof.
    unfold read_ex, ex_unmarshal. destruct n as [t v|t l|t l]; intros H.
    - apply bind_panic in H as [H|[x [_ H]]]; [destruct (ex_val_not_panic _ _ H)|discriminate H].
    - apply bind_panic in H as [H|[x [_ H]]]; [destruct (ex_val_not_panic _ _ H)|discriminate H].
    - apply fold_panic_in in H as [[key v] [e [Hi H]]]. apply ex_assign_panic in H as [H1 H2]. exists t, l, key, v. auto.
  Qed.

  Lemma enum_not_panic k o n : read_enum k o n <> Panic.
  Proof.
    unfold read_enum, seq_fold. destruct n as [|t l|]; try discriminate. intros H. apply fold_panic_in in H as [e [s [_ H]]].
    apply bind_panic in H as [H|[x [_ H]]]; [|discriminate H].
    destruct k; cbn in H; try discriminate H; apply bind_panic in H as [H|[x [_ H]]]; try discriminate H;
      first [exact (to_str_not_panic _ H)|exact (to_bool_not_panic _ H)|exact (to_int_not_panic _ H)|exact (to_float_not_panic _ H)].
  Qed.

  Lemma xml_not_panic n x : xml_unmarshal n x <> Panic.
  Proof.
    unfold xml_unmarshal, map_fold. destruct n as [| |t l]; try discriminate. intros H. apply fold_panic_in in H as [[k v] [s [_ H]]].
    unfold xml_assign in H. cbn [fst snd] in H. unfold as_bool_ptr, as_string_ptr in H. rewrite !run_assign_with in H.
    repeat match type of H with (if ?c then _ else _) = _ => destruct c end;
      (apply bind_panic in H as [H|[y [_ H]]]; [|discriminate H]);
      try (apply bind_panic in H as [H|[y [_ H]]]; [|discriminate H]);
      first [exact (to_str_not_panic _ H)|exact (to_bool_not_panic _ H)|exact (to_scalar_not_panic _ H)].
  Qed.

  Lemma string_list_not_panic n o : run_assign (as_string_list n o) <> Panic.
  Proof.
    intros H. apply run_assign_panic in H. pose proof (as_string_list_all) as A. unfold all_or_nothing in A.
    destruct (A n o) as [[a [_ E]]|[_ E]]; rewrite E in H; discriminate H.
  Qed.

  Lemma sift_not_panic l : sift_type l <> Panic.
  Proof.
    unfold sift_type. destruct (sift_scan l false false) as [[[n|] p] i].
    - destruct (is_string n); [discriminate|]. destruct (is_seq n); [discriminate|]. destruct (node_tag n); discriminate.
    - destruct p; [discriminate|]. destruct i; discriminate.
  Qed.

  Lemma target_none d key : target d key = None -> node_tag key = TStr /\ value key = "".
  Proof.
    unfold target. destruct d as [b|b x fs c s]; [discriminate|]. destruct (common_target _); [discriminate|]. destruct (spec_target _ _); [discriminate|].
    destruct (ext_target _); [discriminate|]. destruct (is_string key) eqn:E; [|discriminate]. apply is_string_tag in E.
    destruct (value key) as [|a r]; [auto|]. destruct (Ascii.eqb a "("); discriminate.
  Qed.

  Lemma target_name d key f s : target d key = Some f -> facet_key f = Some s -> value key = s.
  Proof.
    unfold target. destruct d as [b|b x fs c sp].
    { intros H E. injection H as <-. unfold base_target in E. destruct (_ || _); discriminate E. }
    destruct (common_target (value key)) as [g|] eqn:E1.
    { intros H E. injection H as ->. unfold common_target in E1.
      repeat match type of E1 with (if ?c then _ else _) = _ => let X := fresh "X" in destruct c eqn:X; [apply String.eqb_eq in X|] end;
        try discriminate E1; injection E1 as <-; cbn in E; congruence. }
    destruct (spec_target sp (value key)) as [g|] eqn:E2.
    { intros H E. injection H as ->. destruct sp; cbn [spec_target] in E2;
      repeat match type of E2 with (if ?c then _ else _) = _ => let X := fresh "X" in destruct c eqn:X; [apply String.eqb_eq in X|] end;
        try discriminate E2; injection E2 as <-; cbn in E; congruence. }
    destruct (ext_target (value key)) as [g|] eqn:E3.
    { intros H E. injection H as ->. unfold ext_target in E3.
      repeat match type of E3 with (if ?c then _ else _) = _ => let X := fresh "X" in destruct c eqn:X; [apply String.eqb_eq in X|] end;
        try discriminate E3; injection E3 as <-; cbn in E; congruence. }
    assert (B : Some (base_target (value key)) = Some f -> facet_key f = Some s -> value key = s).
    { intros H E. injection H as <-. unfold base_target in E. destruct (_ || _); discriminate E. }
    destruct (is_string key); [|exact B]. destruct (value key) as [|a r]; [discriminate|].
    destruct (Ascii.eqb a "("); [|exact B]. intros H E. injection H as <-. discriminate E.
  Qed.

  Lemma to_str_bind_panic {A} n (g : string -> A) : (do s <- to_str n; Ok (g s)) <> Panic.
  Proof. intros H. apply bind_panic in H as [H|[x [_ H]]]; [exact (to_str_not_panic _ H)|discriminate H]. Qed.
  Lemma to_bool_bind_panic {A} n (g : bool -> A) : (do s <- to_bool n; Ok (g s)) <> Panic.
  Proof. intros H. apply bind_panic in H as [H|[x [_ H]]]; [exact (to_bool_not_panic _ H)|discriminate H]. Qed.
  Lemma to_int_bind_panic {A} n (g : Z -> A) : (do s <- to_int n; Ok (g s)) <> Panic.
  Proof. intros H. apply bind_panic in H as [H|[x [_ H]]]; [exact (to_int_not_panic _ H)|discriminate H]. Qed.
  Lemma to_float_bind_panic {A} n (g : spec_float -> A) : (do s <- to_float n; Ok (g s)) <> Panic.
  Proof. intros H. apply bind_panic in H as [H|[x [_ H]]]; [exact (to_float_not_panic _ H)|discriminate H]. Qed.

  (** A panic comes from the one of the cases of [crash]. *)
  Lemma step_panic kd f key val old : step hat kd f key val old = Panic ->
    (f = FExample /\ empty_key val) \/ (f = FExamples /\ exists e, child val e /\ empty_key e) \/
    (f = FItems /\ hat val = Panic) \/
    (f = FProps /\ exists p, child val p /\ (hat p = Panic \/ exists b, hat p = Ok (TBase b))) \/
    (f = FFacets /\ exists a p, child val a /\ child a p /\ hat p = Panic).
  Proof.
    intros H.
    destruct f; destruct old; cbn [step] in H; try discriminate H;
      try (exfalso; exact (to_str_bind_panic _ _ H)); try (exfalso; exact (to_bool_bind_panic _ _ H));
      try (exfalso; exact (to_int_bind_panic _ _ H)); try (exfalso; exact (to_float_bind_panic _ _ H));
      try (apply bind_panic in H as [H|[y [_ H]]]; [|discriminate H]);
      try (exfalso; exact (annotation_not_panic _ H)); try (exfalso; exact (xml_not_panic _ _ H)); try (exfalso; exact (enum_not_panic _ _ _ H));
      try (exfalso; exact (string_list_not_panic _ _ H));
      try (right; right; left; auto; fail);
      try (left; split; [reflexivity|]; destruct (has_example kd); [|discriminate H]; apply bind_panic in H as [H|[y [_ H]]]; [|discriminate H]; eapply read_ex_panic; exact H).
    - apply read_amap_panic in H as [a [Ha H]]. apply read_amap_panic in H as [p [Hp H]]. do 4 right. eauto 6.
    - right; left. split; [reflexivity|]. apply read_amap_panic in H as [e [He H]]. exists e. split; [exact He|]. eapply read_ex_panic; exact H.
    - do 3 right; left. split; [reflexivity|]. apply read_amap_panic in H as [p [Hp H]]. exists p. split; [exact Hp|].
      apply bind_panic in H as [H|[t [Ht H]]]; [auto|]. destruct t; [|discriminate H]. eauto.
  Qed.

  (** C29 for type definitions *)
  Lemma hat_crash n : hat n = Panic -> crash n.
  Proof.
    induction n as [n IH] using node_strong_ind. intros H. rewrite hat_eq in H. unfold hat_body in H.
    destruct (is_string n); [discriminate H|]. destruct n as [t v|t l|t l]; [destruct t; discriminate H|discriminate H|].
    apply bind_panic in H as [H|[d [_ H]]]; [destruct (sift_not_panic _ H)|].
    apply fold_panic_in in H as [[key val] [d' [Hi H]]]. rewrite type_assign_step in H.
    assert (U : forall s, value key = s -> under s (Map t l) val) by (intros s E; exists t, l, key; auto).
    assert (Sz : node_size val < node_size (Map t l)) by (eapply size_map_val; exact Hi).
    assert (Sc : forall n m, child n m -> node_size m < node_size n).
    { intros n0 m [t0 [l0 [k0 [-> H0]]]]. eapply size_map_val. exact H0. }
    destruct (target d' key) as [f|] eqn:T.
    - unfold step_in in H. destruct (getf f d') as [old|]; [|discriminate H]. apply bind_panic in H as [H|[y [_ H]]]; [|discriminate H].
      apply step_panic in H as [[-> H]|[[-> [e [He H]]]|[[-> H]|[[-> [p [Hp H]]]|[-> [a [p [Ha [Hp H]]]]]]]]].
      + eapply crash_example; [apply U; eapply target_name; [exact T|reflexivity]|exact H].
      + eapply crash_examples; [apply U; eapply target_name; [exact T|reflexivity]|exact He|exact H].
      + eapply crash_items; [apply U; eapply target_name; [exact T|reflexivity]|]. apply IH; [exact Sz|exact H].
      + assert (U' : under "properties" (Map t l) val) by (apply U; eapply target_name; [exact T|reflexivity]).
        destruct H as [H|[b H]].
        * eapply crash_property; [exact U'|exact Hp|]. apply IH; [specialize (Sc _ _ Hp); lia|exact H].
        * eapply crash_base; [exact U'|exact Hp|exact H|]. pose proof (hat_shaped _ _ H) as S. unfold shaped, d_kind in *. cbn in *.
          destruct (b_kind b); try discriminate S; auto.
      + eapply crash_facet; [apply U; eapply target_name; [exact T|reflexivity]|exact Ha|exact Hp|]. apply IH; [|exact H].
        pose proof (Sc _ _ Hp). pose proof (Sc _ _ Ha). lia.
    - apply target_none in T as [T1 T2]. apply crash_key. exists t, l, key, val. auto.
  Qed.
End Crash.

Lemma crash_map {F : FloatIO} n : crash n -> exists t l, n = Map t l.
Proof.
  intros H. destruct H as [n [t [l [k [v [-> _]]]]]|n m [t [l [k [-> _]]]] _|n m e [t [l [k [-> _]]]] _ _|n m [t [l [k [-> _]]]] _|n m p [t [l [k [-> _]]]] _ _
    |n m p d [t [l [k [-> _]]]] _ _ _|n m a p [t [l [k [-> _]]]] _ _ _]; eauto.
Qed.
