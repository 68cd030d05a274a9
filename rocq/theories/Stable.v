(** C32: reading, writing and reading again. *)
From Coq Require Import SpecFloat.
From Verif Require Import Base Num OMap OMapSpec Keys Yaml Values Assign Formats Meta Out Xml Example DataType Marshal
  AssignProofs TypeFacts Fields FieldProofs FacetSpec FacetProofs DocProofs OrderProofs PathProofs TypeWrite Segs ExProofs Same ExRound TypeSegs WriteSpec WriteProofs
  ReadInv RoundSpec RoundProofs WasRead Writable.

Section Stable.
  Context {F : FloatIO}.

  (** ** What survives *)

  (** A float64 whose text means it again. *)
  Definition exact_float (x : spec_float) : Prop := denotes_float (float_node x) x.

  (** An example that is written in the expanded form and has no annotations. *)
  Definition settled_ex (e : ex) : Prop :=
    more_than_value e /\ ents (ex_anns e) = [] /\
    (forall x, ex_value e = Some (GFloat x) -> exact_float x) /\
    (forall x v, In (KFloat x, v) (ents (ex_extra e)) -> to_scalar (float_node x) = Ok (KFloat x)).

  (** A type definition with nothing in it, at any depth, that is lost or changed by writing: no annotations, no facet definitions, no XML
      settings, no short examples, no wrapped negative numbers, no extra facet with an empty name or one that begins with a parenthesis (but in a nil type);
      its type string has its kind. *)
  Inductive settled : dtype -> Prop :=
  | settle d :
      (forall m, getf FAnns d = Some (VAnns m) -> ents m = []) ->
      (forall m, getf FFacets d = Some (VFacets m) -> ents m = []) ->
      (forall x, getf FXml d = Some (VXml (Some x)) -> x = new_xml) ->
      (forall e, getf FExample d = Some (VEx (Some e)) -> settled_ex e) ->
      (forall m s e, getf FExamples d = Some (VExs m) -> In (s, e) (ents m) -> settled_ex e) ->
      (forall f z, getf f d = Some (VInt z) \/ getf f d = Some (VOptInt (Some z)) -> (z <= 2 ^ 63 - 1)%Z) ->
      (forall f x, getf f d = Some (VOptFloat (Some x)) -> exact_float x) ->
      (forall l x, getf FEnum d = Some (VVals (Some l)) -> In (GFloat x) l -> exact_float x) ->
      (d_kind d <> TyNil -> forall s, In (KStr s) (extra_keys d) -> s <> "" /\ starts_paren s = false) ->
      (d_kind d <> TyInclude -> named (d_type d) (d_kind d)) ->
      (d_kind d = TyInclude -> extra_keys d = []) ->
      (forall t, getf FItems d = Some (VOptType (Some t)) -> settled t) ->
      (forall m s t, getf FProps d = Some (VTypes m) -> In (s, t) (ents m) -> settled t) ->
      settled d.

  (** ** It comes back *)

  Lemma extra_unknown n d s : hat n = Ok d -> In (KStr s) (extra_keys d) -> ~ In s (known_keys (d_kind d)).
  Proof.
    intros H Hi. destruct (is_map n) eqn:Em.
    2:{ rewrite (scalar_read n d Em H) in Hi. destruct (d_kind d); destruct Hi. }
    destruct n as [| |t l]; try discriminate. destruct (is_string (Map t l)) eqn:Es.
    { rewrite hat_eq in H. unfold hat_body in H. rewrite Es in H. injection H as <-. rewrite type_to_kind_eq in Hi.
      destruct (kind_of (value (Map t l))); destruct Hi. }
    apply (extras_keys t l d) in Hi as [e [_ [E Hx]]]; [|intros ->; discriminate|exact H]. injection E as ->.
    unfold extra_key in Hx. apply andb_true_iff in Hx as [Hx _]. apply negb_true_iff in Hx. intros K.
    assert (existsb (String.eqb (value (fst e))) (known_keys (d_kind d)) = true); [|congruence].
    apply existsb_exists. exists (value (fst e)). split; [exact K|apply String.eqb_refl].
  Qed.

  Lemma elem_returns k n g : enum_elem k n = Ok g -> (forall x, g = GFloat x -> exact_float x) -> enum_returns k g.
  Proof.
    destruct k; cbn; intros H Hx; try (apply bind_ok in H as [x [Hb H]]); injection H as <-; try (eexists; reflexivity).
    - eexists. split; [reflexivity|]. eapply to_int_in. exact Hb.
    - eexists. split; [reflexivity|]. apply Hx. reflexivity.
  Qed.

  Lemma val_returns k n g : ex_val k n = Ok g -> (forall x, g = GFloat x -> exact_float x) -> value_returns k g.
  Proof.
    intros H Hx. pose proof (value_writes k n g H) as [m Hm]. revert H Hm.
    destruct k; cbn [ex_val value_returns]; intros H Hm; try discriminate H; try (apply bind_ok in H as [x [Hb H]]);
      try (injection H as <-; eexists; reflexivity).
    - destruct n; try discriminate H. injection H as <-. eauto.
    - injection H as <-. eexists. split; [reflexivity|]. eapply to_int_in. exact Hb.
    - injection H as <-. eexists. split; [reflexivity|]. apply Hx. reflexivity.
  Qed.

  Lemma ex_extra_names k n e s : read_ex k n = Ok e -> In (KStr s) (map fst (ents (ex_extra e))) ->
    s <> "" /\ starts_paren s = false /\ ~ In s ex_names.
  Proof.
    unfold read_ex, ex_unmarshal. intros H. pose (I := fun e : ex => In (KStr s) (map fst (ents (ex_extra e))) -> s <> "" /\ starts_paren s = false /\ ~ In s ex_names).
    change (I e). assert (I0 : I new_ex) by (intros []).
    destruct n as [t v|t l|t l].
    - apply bind_ok in H as [g [Hg H]]. injection H as <-. exact I0.
    - apply bind_ok in H as [g [Hg H]]. injection H as <-. exact I0.
    - revert H I0. generalize new_ex. induction l as [|p l IH]; intros e0 H I0; [injection H as <-; exact I0|].
      cbn in H. apply bind_ok in H as [e1 [H1 H]]. apply (IH e1 H). clear IH H.
      assert (X : forall a v, (a = KStr s -> s <> "" /\ starts_paren s = false /\ ~ In s ex_names) -> I (ex_set_extra e0 a v)).
      { intros a v Ha Hi. cbn in Hi. unfold sput, sdelete in Hi. rewrite map_app in Hi. apply in_app_or in Hi as [Hi|[Hi|[]]]; [|auto].
        apply I0. apply in_map_iff in Hi as [x [E Hx]]. apply filter_In in Hx as [Hx _]. rewrite <- E. apply in_map. exact Hx. }
      unfold ex_assign in H1. destruct (negb (is_string (fst p))) eqn:Es.
      { apply bind_ok in H1 as [a [Ha H1]]. injection H1 as <-. apply X. intros ->.
        destruct (fst p) as [[] v0| |]; cbn in Ha, Es; try discriminate; apply bind_ok in Ha as [? [_ Ha]]; discriminate. }
      destruct (value (fst p)) as [|c r] eqn:Ev; [discriminate H1|]. destruct (Ascii.eqb c "(") eqn:Ec.
      { apply bind_ok in H1 as [a [Ha H1]]. injection H1 as <-. exact I0. }
      destruct (String.eqb (String c r) "displayName") eqn:E1; [apply bind_ok in H1 as [a [Ha H1]]; injection H1 as <-; exact I0|].
      destruct (String.eqb (String c r) "description") eqn:E2; [apply bind_ok in H1 as [a [Ha H1]]; injection H1 as <-; exact I0|].
      destruct (String.eqb (String c r) "strict") eqn:E3; [apply bind_ok in H1 as [a [Ha H1]]; injection H1 as <-; exact I0|].
      destruct (String.eqb (String c r) "value") eqn:E4; [apply bind_ok in H1 as [a [Ha H1]]; injection H1 as <-; exact I0|].
      apply bind_ok in H1 as [a [Ha H1]]. injection H1 as <-. apply X. intros ->.
      assert (E : s = String c r).
      { destruct (fst p) as [[] v0| |]; cbn in Ha, Es, Ev; try discriminate; congruence. }
      rewrite E. split; [discriminate|]. split; [exact Ec|]. cbn.
      apply String.eqb_neq in E1, E2, E3, E4. intuition congruence.
  Qed.

  Lemma scalar_returns n a : to_scalar n = Ok a -> (forall x, a = KFloat x -> to_scalar (float_node x) = Ok (KFloat x)) -> key_returns a.
  Proof.
    intros H Hx. unfold key_returns. destruct n as [t v| |]; try discriminate H.
    destruct t; cbn in H; try discriminate H; try (apply bind_ok in H as [x [Hb H]]); injection H as <-; try (eexists; split; reflexivity).
    - exists (int_node x). split; [reflexivity|].
      assert (R : to_int (int_node x) = Ok x).
      { apply to_int_range. apply (to_int_in (Scal TInt v)). cbn. exact Hb. }
      unfold int_node in *. cbn -[parse_int64] in *. rewrite R. reflexivity.
    - exists (bool_node x). split; [reflexivity|]. destruct x; reflexivity.
    - exists (float_node x). split; [reflexivity|]. apply Hx. reflexivity.
  Qed.

  Lemma settled_ex_returns k n e : read_ex k n = Ok e -> settled_ex e -> ex_returns k e.
  Proof.
    intros H [_ [Ha [Hv Hk]]]. destruct (read_ex_read k n e H) as [R1 [R2 [R3 [R4 R5]]]].
    split; [|split; [|split; [|split]]].
    - intros v E. destruct (R1 v E) as [m Hm]. eapply val_returns; [exact Hm|]. intros x ->. apply Hv. exact E.
    - rewrite Ha. constructor.
    - rewrite Ha. constructor.
    - exact R4.
    - apply Forall_forall. intros [a g] Hi. destruct (R5 a g Hi) as [[m Hm] [ng ->]]. split; [|exists ng; reflexivity].
      cbn [fst]. split; [eapply scalar_returns; [exact Hm|]; intros x Ea; subst a; eapply Hk; exact Hi|].
      intros s E. cbn in E. subst a. eapply ex_extra_names; [exact H|]. apply (in_map fst) in Hi. exact Hi.
  Qed.

  Lemma settled_returns d : settled d -> forall n, hat n = Ok d -> type_returns d.
  Proof.
    induction 1 as [d Hann Hfac Hxml Hex Hexs Hint Hfl Hen Hk Hnm Hinc Hit IHit Hpr IHpr]. intros n H.
    assert (Hak : ann_keys_of d = []).
    { unfold ann_keys_of. destruct (getf FAnns d) as [[]|] eqn:G; try reflexivity. rewrite (Hann _ eq_refl). reflexivity. }
    constructor.
    - apply (read_tidy_apart n d H). rewrite Hak. intros s [].
    - exact Hnm.
    - intros E. specialize (Hinc E). unfold extra_keys in Hinc. destruct (ents (d_extra d)); [reflexivity|discriminate].
    - intros f v G. pose proof (hat_read n d H f v G) as R. pose proof (get_spec_sort d f v (hat_shaped n d H) G) as So.
      destruct v; cbn [field_read] in R.
      + apply ret_str.
      + apply ret_optstr.
      + apply ret_bool.
      + apply ret_int. split; [lia|]. apply (Hint f). left. exact G.
      + apply ret_optint. intros z ->. assert (Hz := Hint f z (or_intror G)). destruct (signed f); split; try lia; discriminate.
      + apply ret_optfloat. intros x ->. eapply Hfl. exact G.
      + apply ret_strs.
      + apply ret_optval. intros v ->. destruct R as [R1 [m ->]]. split; [exact R1|exists m; reflexivity].
      + apply ret_vals. destruct o as [l|]; [|intros v []]. destruct R as [_ R]. intros v Hi. destruct (R v Hi) as [m Hm].
        eapply elem_returns; [exact Hm|]. intros x ->.
        assert (f = FEnum) by (destruct f; cbn in So; destruct (d_kind d); discriminate So || reflexivity). subst f. eapply Hen; eassumption.
      + apply ret_type. intros t ->. destruct R as [n' [_ Hn]].
        assert (f = FItems) by (destruct f; cbn in So; destruct (d_kind d); discriminate So || reflexivity). subst f. eapply IHit; eassumption.
      + destruct R as [R1 [R2 R3]]. apply ret_types; [intros _; exact R1|exact R2|]. intros s t Hi. destruct (R3 s t Hi) as [[n' [_ Hn]] R4]. split; [|exact R4].
        assert (f = FProps) by (destruct f; cbn in So; destruct (d_kind d); discriminate So || reflexivity). subst f. eapply IHpr; eassumption.
      + assert (f = FFacets) by (destruct f; cbn in So; destruct (d_kind d); discriminate So || reflexivity). subst f. 
        apply ret_facets; rewrite (Hfac m G); [congruence|constructor|intros s m' []|intros s m' s' t []].
      + assert (f = FAnns) by (destruct f; cbn in So; destruct (d_kind d); discriminate So || reflexivity). subst f.
        apply ret_anns. rewrite (Hann m G). intros s a [].
      + assert (f = FXml) by (destruct f; cbn in So; destruct (d_kind d); discriminate So || reflexivity). subst f.
        apply ret_xml. intros x ->. apply Hxml. exact G.
      + assert (f = FExample) by (destruct f; cbn in So; destruct (d_kind d); discriminate So || reflexivity). subst f.
        apply ret_ex. intros e ->. destruct R as [R1 [m Hm]]. pose proof (Hex e G) as Se. split; [exact R1|]. split; [apply Se|].
        eapply settled_ex_returns; eassumption.
      + assert (f = FExamples) by (destruct f; cbn in So; destruct (d_kind d); discriminate So || reflexivity). subst f.
        destruct R as [R1 [R2 R3]]. apply ret_exs; [intros _; exact R1|exact R2|]. intros s e Hi. destruct (R3 s e Hi) as [m' Hm]. pose proof (Hexs m s e G Hi) as Se.
        split; [apply Se|]. eapply settled_ex_returns; eassumption.
      + assert (f = FExtra) by (destruct f; cbn in So; destruct (d_kind d); discriminate So || reflexivity). subst f.
        rewrite getf_extra in G. injection G as <-. destruct R as [R1 R2]. apply ret_extra. intros a g Hi. destruct (R2 a g Hi) as [[s ->] [m ->]].
        exists s, m. split; [reflexivity|]. split; [reflexivity|]. assert (Hs : In (KStr s) (extra_keys d)) by (apply (in_map fst) in Hi; exact Hi).
        split; [intros Nn; exact (Hk Nn s Hs)|]. eapply extra_unknown; eassumption.
  Qed.

  (** ** Two types that were read and are the same are equal *)

  Lemma same_nodes v w : same_value v w -> is_node v -> is_node w -> v = w.
  Proof. intros [n [H1 H2]] [a ->] [b ->]. cbn in *. congruence. Qed.

  Lemma same_entries_eq {K V} (R : V -> V -> Prop) (l l' : list (K * V)) :
    Forall2 (fun a b => fst a = fst b /\ R (snd a) (snd b)) l l' ->
    (forall k v w, In (k, v) l -> In (k, w) l' -> R v w -> v = w) -> l = l'.
  Proof.
    intros H. induction H as [|[k v] [k' v'] l l' [E R0] H IH]; intros Hq; [reflexivity|]. cbn in E, R0. subst k'.
    rewrite (Hq k v v' (or_introl eq_refl) (or_introl eq_refl) R0), IH; [reflexivity|]. intros k0 v0 w0 H1 H2. apply (Hq k0); right; assumption.
  Qed.

  Lemma same_map_eq {K V} (R : V -> V -> Prop) (m m' : amap K V) :
    Forall2 (fun a b => fst a = fst b /\ R (snd a) (snd b)) (ents m) (ents m') -> oord m = oord m' ->
    (forall k v w, In (k, v) (ents m) -> In (k, w) (ents m') -> R v w -> v = w) -> m = m'.
  Proof. destruct m as [l o], m' as [l' o']. cbn. intros H -> Hq. f_equal. eapply same_entries_eq; eassumption. Qed.

  Lemma same_anns_eq b (m m' : amap string untyped) : same_map (same_map same_value) m m' ->
    map_read b (fun s a => starts_paren s = true /\ ann_read a) m -> map_read b (fun s a => starts_paren s = true /\ ann_read a) m' -> m = m'.
  Proof.
    intros H [A1 [A2 A3]] [B1 [B2 B3]]. apply (same_map_eq (same_map same_value)); [exact H|exact (eq_trans A1 (eq_sym B1))|]. intros k v w Hv Hw Hr.
    destruct (A3 k v Hv) as [_ [C1 [C2 C3]]]. destruct (B3 k w Hw) as [_ [D1 [D2 D3]]].
    apply (same_map_eq same_value); [exact Hr|exact (eq_trans C1 (eq_sym D1))|]. intros k0 v0 w0 H1 H2 H3. apply same_nodes; [exact H3|eapply C3; exact H1|eapply D3; exact H2].
  Qed.

  Lemma same_extras_eq (m m' : amap gkey gval) : same_map same_value m m' -> oord m = oord m' ->
    (forall a g, In (a, g) (ents m) -> is_node g) -> (forall a g, In (a, g) (ents m') -> is_node g) -> m = m'.
  Proof.
    intros H Ho A B. apply (same_map_eq same_value); [exact H|exact Ho|]. intros k v w Hv Hw Hr. apply same_nodes; [exact Hr|eapply A; exact Hv|eapply B; exact Hw].
  Qed.

  Lemma nodes_inj l l' : map_res to_node (map GNode l) = map_res to_node (map GNode l') -> l = l'.
  Proof.
    rewrite !map_res_map. cbn. rewrite !(map_res_total _ _ (fun n => Ok n) (fun n => n)) by reflexivity. rewrite !map_id. congruence.
  Qed.

  Lemma same_of_eq_val k v w : same_of k v w -> (exists n, ex_val k n = Ok v) -> (exists n, ex_val k n = Ok w) -> v = w.
  Proof.
    destruct k; cbn; try (intros H _ _; exact H); intros H [n Hn] [n' Hn']; try discriminate Hn;
      try (injection Hn as <-; injection Hn' as <-; apply same_nodes; [exact H|eexists; reflexivity|eexists; reflexivity]).
    destruct n; try discriminate Hn. destruct n'; try discriminate Hn'. injection Hn as <-. injection Hn' as <-.
    destruct H as [m [H1 H2]]. cbn in H1, H2. rewrite <- H2 in H1. f_equal. f_equal. apply nodes_inj.
    destruct (map_res to_node (map GNode l)); cbn in H1; destruct (map_res to_node (map GNode l0)); cbn in H1, H2; congruence.
  Qed.

  Lemma same_of_eq_elem k v w : same_of k v w -> (exists n, enum_elem k n = Ok v) -> (exists n, enum_elem k n = Ok w) -> v = w.
  Proof.
    destruct k; cbn; try (intros H _ _; exact H); intros H [n Hn] [n' Hn'];
      injection Hn as <-; injection Hn' as <-; (apply same_nodes; [exact H|eexists; reflexivity|eexists; reflexivity]).
  Qed.

  Lemma same_ex_eq k e e' : same_ex k e e' -> ex_read k e -> ex_read k e' -> e = e'.
  Proof.
    intros [H1 [H2 [H3 [H4 [H5 H6]]]]] [A1 [A2 [A3 [A4 A5]]]] [B1 [B2 [B3 [B4 B5]]]].
    apply same_anns_eq with (b := false) in H5; [|exact A2|exact B2].
    apply same_extras_eq in H6; [|congruence|intros a g Hi; apply (A5 a g Hi)|intros a g Hi; apply (B5 a g Hi)].
    assert (H : ex_value e = ex_value e').
    { destruct (ex_value e) as [v|]; destruct (ex_value e') as [w|]; cbn in H4; try (destruct H4; fail); [|reflexivity].
      f_equal. eapply same_of_eq_val; [exact H4|apply A1; reflexivity|apply B1; reflexivity]. }
    destruct e, e'; cbn in *; congruence.
  Qed.

  Lemma same_read_eq n : forall n' d d', hat n = Ok d -> hat n' = Ok d' -> same_type d d' -> d = d'.
  Proof.
    induction n as [n IH] using node_strong_ind. intros n' d d' H H' S. inversion S as [x y K G N]; subst x y.
    apply field_ext; [exact K|]. intros f. destruct (getf f d) as [v|] eqn:E; [|symmetry; apply N; exact E].
    destruct (G f v E) as [w [E' R]]. rewrite E'. f_equal.
    pose proof (hat_read n d H f v E) as A. pose proof (hat_read n' d' H' f w E') as B. rewrite <- K in B.
    destruct R as [v|a b Hs|a b Hs|a b Hs|m m' Hs|m m' Hs|m m' Hs|a b Hs|m m' Hs|m m' Hs]; cbn [field_read] in A, B.
    - reflexivity.
    - f_equal. f_equal. apply same_nodes; [exact Hs|apply A|apply B].
    - f_equal. assert (L : opt_list a = opt_list b).
      { assert (A' : forall g, In g (opt_list a) -> exists n0, enum_elem (d_kind d) n0 = Ok g) by (destruct a; [apply A|intros g []]).
        assert (B' : forall g, In g (opt_list b) -> exists n0, enum_elem (d_kind d) n0 = Ok g) by (destruct b; [apply B|intros g []]).
        clear -Hs A' B'. induction Hs as [|x y l l' Hx Hs IH]; [reflexivity|]. f_equal.
        - eapply same_of_eq_elem; [exact Hx|apply A'; left; reflexivity|apply B'; left; reflexivity].
        - apply IH; intros; [apply A'|apply B']; right; assumption. }
      destruct a as [[|]|], b as [[|]|]; cbn in L; try (destruct A as [A _]); try (destruct B as [B _]); congruence.
    - f_equal. f_equal. destruct A as [n1 [Hz A]]. destruct B as [n2 [_ B]]. exact (IH n1 Hz n2 a b A B Hs).
    - f_equal. destruct A as [A1 [A2 A3]]. destruct B as [B1 [B2 B3]]. apply (same_map_eq same_type); [exact Hs|congruence|].
      intros k t t' Ht Ht' Hr. destruct (A3 k t Ht) as [[n1 [Hz C]] _]. destruct (B3 k t' Ht') as [[n2 [_ D]] _]. exact (IH n1 Hz n2 t t' C D Hr).
    - f_equal. destruct A as [A1 [A2 A3]]. destruct B as [B1 [B2 B3]].
      apply (same_map_eq (fun a b => Forall2 (fun c d => fst c = fst d /\ same_type (snd c) (snd d)) (ents a) (ents b))); [exact Hs|congruence|].
      intros k a b Ha Hb Hr. destruct (A3 k a Ha) as [C1 [C2 C3]]. destruct (B3 k b Hb) as [D1 [D2 D3]]. apply (same_map_eq same_type); [exact Hr|congruence|].
      intros k0 t t' Ht Ht' Hr'. destruct (C3 k0 t Ht) as [n1 [Hz C]]. destruct (D3 k0 t' Ht') as [n2 [_ D]]. exact (IH n1 Hz n2 t t' C D Hr').
    - f_equal. eapply same_anns_eq; eassumption.
    - f_equal. f_equal. destruct A as [_ [n1 A]]. destruct B as [_ [n2 B]]. eapply same_ex_eq; [exact Hs|eapply read_ex_read; exact A|eapply read_ex_read; exact B].
    - f_equal. destruct A as [A1 [A2 A3]]. destruct B as [B1 [B2 B3]]. apply (same_map_eq (same_ex (d_kind d))); [exact Hs|congruence|].
      intros k t t' Ht Ht' Hr. destruct (A3 k t Ht) as [n1 C]. destruct (B3 k t' Ht') as [n2 D]. eapply same_ex_eq; [exact Hr|eapply read_ex_read; exact C|eapply read_ex_read; exact D].
    - f_equal. destruct A as [A1 A2]. destruct B as [B1 B2]. apply same_extras_eq; [exact Hs|congruence|intros a g Hi; apply (A2 a g Hi)|intros a g Hi; apply (B2 a g Hi)].
  Qed.

  (** C32 *)
  Lemma stable n d : hat n = Ok d -> settled d -> exists n', to_yaml d = Ok n' /\ hat n' = Ok d.
  Proof.
    intros H S. destruct (round_trip d (settled_returns d S n H)) as [[n' [d' [W [R E]]]] _].
    exists n'. split; [exact W|]. rewrite R. f_equal. symmetry. eapply same_read_eq; eassumption.
  Qed.
End Stable.
