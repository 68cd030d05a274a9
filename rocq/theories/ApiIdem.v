(** C68 for API documents and libraries: formatting twice. *)
From Coq Require Import SpecFloat.
From Verif Require Import Base Num OMap OMapSpec Keys Yaml Values Assign Formats Meta Out Xml Example DataType Marshal Doc Api Library
  AssignProofs TypeFacts Fields FieldProofs FacetSpec FacetProofs DocProofs OrderProofs PathProofs Lens Segs ExProofs WriteProofs ReadInv Same ExRound TypeSegs WriteSpec
  RoundSpec RoundProofs WasRead Writable Stable Crash Parts ApiFields ApiSpec ApiProofs LibProofs ApiWrite ApiRoundSpec ApiRound LibRound ApiOrder ApiReadRound LibReadRound LibAll IdemSpec Idem.

Section ApiIdem.
  Context {F : FloatIO}.

  Lemma mputs_oord {V} (kvs : list (string * V)) : forall m, oord (mputs kvs m) = oord m.
  Proof. induction kvs as [|[k v] kvs IH]; intros m; [reflexivity|]. cbn [mputs fold_left] in *. unfold mputs in IH. rewrite IH. destruct m; reflexivity. Qed.

  Lemma filled_oord {V} (R : node -> V -> Prop) l m : filled R l m -> oord m = false.
  Proof. intros [kvs [_ ->]]. apply mputs_oord. Qed.

  Lemma kputs_oord {V} (kvs : list (gkey * V)) : forall m, oord (kputs kvs m) = oord m.
  Proof. induction kvs as [|[k v] kvs IH]; intros m; [reflexivity|]. cbn [kputs fold_left] in *. unfold kputs in IH. rewrite IH. destruct m; reflexivity. Qed.

  Lemma filled_as_is_nodes l (m : untyped) : filled as_is l m -> forall k v, In (k, v) (ents m) -> is_node v.
  Proof. intros H k v Hi. apply filled_came in H. rewrite Forall_forall in H. destruct (H _ Hi) as [n Hn]. exists n. exact Hn. Qed.

  Lemma filled_as_is_eq l l' (m m' : untyped) : filled as_is l m -> filled as_is l' m' -> same_map same_value m m' -> m = m'.
  Proof.
    intros A B H. apply (same_map_eq same_value); [exact H|rewrite (filled_oord _ _ _ A), (filled_oord _ _ _ B); reflexivity|].
    intros k v w Hv Hw Hr. apply same_nodes; [exact Hr|exact (filled_as_is_nodes _ _ A _ _ Hv)|exact (filled_as_is_nodes _ _ B _ _ Hw)].
  Qed.

  Lemma filled_eq {V} (R : node -> V -> Prop) l l' (m m' : amap string V) : filled R l m -> filled R l' m' -> same_map eq m m' -> m = m'.
  Proof.
    intros A B H. apply (same_map_eq eq); [exact H|rewrite (filled_oord _ _ _ A), (filled_oord _ _ _ B); reflexivity|]. intros k v w _ _ E. exact E.
  Qed.

  (** ** API documents *)

  (** Without its types, and with what the documentation entries are written as. *)
  Definition bare (a : api) : api :=
    a_set_types anew_unordered (a_set_documentation (option_map (map (fun _ => new_doc)) (a_documentation a)) a).

  Lemma docs_node_new l : docs_node (map (fun _ => new_doc) l) = docs_node l.
  Proof.
    unfold docs_node. replace (map_res doc_node (map (fun _ => new_doc) l)) with (map_res doc_node l); [reflexivity|].
    induction l as [|d l IH]; [reflexivity|]. cbn [map map_res doc_node bind]. rewrite IH. reflexivity.
  Qed.

  Lemma bare_seg a f : f <> ATypes -> api_seg (bare a) f = api_seg a f.
  Proof.
    intros Hf. destruct f; try reflexivity; [|congruence]. cbn [api_seg bare a_documentation a_set_types a_set_documentation].
    destruct (a_documentation a) as [ds|]; [|reflexivity]. cbn [option_map opt_seg]. rewrite docs_node_new. reflexivity.
  Qed.

  Definition api_front : list afield := removelast api_order.
  Lemma api_front_order : api_order = (api_front ++ [ATypes])%list.
  Proof. reflexivity. Qed.
  Lemma api_front_not f : In f api_front -> f <> ATypes.
  Proof. intros H ->. cbn in H. repeat (destruct H as [H|H]; [discriminate H|]). exact H. Qed.

  Lemma flat_map_in_ext {A B} (g h : A -> list B) l : (forall x, In x l -> g x = h x) -> flat_map g l = flat_map h l.
  Proof. intros H. induction l as [|x l IH]; [reflexivity|]. cbn [flat_map]. rewrite (H x (or_introl eq_refl)), IH; [reflexivity|]. intros y Hy. apply H. right. exact Hy. Qed.

  Lemma segs_front a b : (forall f, f <> ATypes -> api_seg a f = api_seg b f) -> flat_map (api_seg a) api_front = flat_map (api_seg b) api_front.
  Proof. intros H. apply flat_map_in_ext. intros f Hf. apply H, api_front_not, Hf. Qed.

  Lemma segs_order a : flat_map (api_seg a) api_order = (flat_map (api_seg a) api_front ++ api_seg a ATypes)%list.
  Proof. rewrite api_front_order, flat_map_app. cbn [flat_map]. rewrite app_nil_r. reflexivity. Qed.

  Lemma wrote_same o l l' : Forall2 wrote o l -> Forall2 wrote o l' -> l = l'.
  Proof.
    intros H. revert l'. induction H as [|e p o l [A B] H IH]; intros l' H'; inversion H' as [|e' p' o' k' [A' B'] H'']; subst; [reflexivity|].
    f_equal; [|apply IH; exact H'']. destruct p, p'. cbn in *. congruence.
  Qed.

  Lemma bare_returns l a : api_document l a -> ents (a_annotations a) = [] -> exact_keys (a_extra a) -> api_returns (bare a).
  Proof.
    intros H Ha Hx. split; [exact (api_read_tidy l a H)|].
    destruct H as (A1 & A2 & A3 & A4 & A5 & A6 & A7 & A8 & A9 & A10 & A11 & A12 & A13 & A14 & A15 & A16 & A17 & A18).
    assert (As : forall n v, as_is n v -> has_node v) by (intros n v ->; exists n; reflexivity).
    split; [|split; [exact (filled_returns _ _ _ _ A9 (fun _ _ _ => I))|]].
    { cbn. destruct (a_documentation a) as [ds|]; [|constructor]. cbn. apply Forall_forall. intros d Hd. apply in_map_iff in Hd as [x [<- _]]. reflexivity. }
    do 5 (split; [eapply filled_returns; [eassumption|exact As]|]).
    split; [|split; [|split]].
    - split; [intros E; exfalso; apply E; reflexivity|]. split; constructor.
    - cbn [bare a_set_types a_set_documentation a_annotations]. rewrite Ha. constructor.
    - cbn [bare a_set_types a_set_documentation a_resources]. rewrite A17. apply Forall_forall. intros e He. apply mputs_in in He as [He|[]].
      apply in_map_iff in He as [p [<- Hp]]. apply filter_In in Hp as [_ Hp].
      cbn [fst snd]. split; [|exists (snd p); reflexivity]. unfold is_resource_key in Hp. apply andb_true_iff in Hp as [_ Hp]. exact Hp.
    - cbn [bare a_set_types a_set_documentation a_extra]. apply extra_read in A18 as [_ A18]. unfold extras_return. apply Forall_forall. intros [k v] He.
      destruct (A18 k v He) as [p [Hp [Hx' [K1 K2]]]]. cbn [fst snd]. split; [|split].
      + eapply scalar_returns; [exact K1|]. intros x ->. eapply Hx. exact He.
      + rewrite K2. exists (snd p). reflexivity.
      + intros s ->. apply scalar_str in K1 as [K1 K3]. unfold api_extra_key in Hx'. rewrite K1 in Hx'. cbn [andb] in Hx'. apply negb_true_iff in Hx'.
        apply orb_false_iff in Hx' as [Hx' Hx3]. apply orb_false_iff in Hx' as [Hx1 Hx2]. rewrite K3 in *. intros [Q|[Q|[Q|Q]]].
        * rewrite Q in Hx3. discriminate Hx3.
        * unfold is_annotation_key in Hx1. rewrite K1, K3 in Hx1. cbn [andb] in Hx1. unfold starts_paren in Q. congruence.
        * unfold is_resource_key in Hx2. rewrite K1, K3 in Hx2. cbn [andb] in Hx2. unfold starts_slash in Q. congruence.
        * assert (X : existsb (String.eqb s) ("" :: api_names) = true) by (apply existsb_exists; eexists; split; [right; exact Q|apply String.eqb_refl]). congruence.
  Qed.

  Lemma bare_same l l' a b : api_document l a -> api_document l' b -> ents (a_types b) = [] -> ents (a_annotations a) = [] -> same_api (bare a) b -> b = bare a.
  Proof.
    intros H H' Ht Ha S.
    destruct H as (A1 & A2 & A3 & A4 & A5 & A6 & A7 & A8 & A9 & A10 & A11 & A12 & A13 & A14 & A15 & A16 & A17 & A18).
    destruct H' as (B1 & B2 & B3 & B4 & B5 & B6 & B7 & B8 & B9 & B10 & B11 & B12 & B13 & B14 & B15 & B16 & B17 & B18).
    apply api_ext. intros f. pose proof (S f) as Sf. symmetry. destruct f; cbn [aget same_afield] in *; try exact Sf.
    - cbn [bare a_set_types a_set_documentation a_documentation] in *. destruct A8 as [ds [_ E]], B8 as [ds' [_ E']]. rewrite E in *. rewrite E' in *.
      destruct ds, ds'; cbn in *; try discriminate Sf; [reflexivity|]. injection Sf as <- <-. reflexivity.
    - eapply filled_eq; eassumption.
    - eapply filled_as_is_eq; [exact A10|exact B10|exact Sf].
    - eapply filled_as_is_eq; [exact A11|exact B11|exact Sf].
    - eapply filled_as_is_eq; [exact A12|exact B12|exact Sf].
    - eapply filled_as_is_eq; [exact A13|exact B13|exact Sf].
    - eapply filled_as_is_eq; [exact A14|exact B14|exact Sf].
    - assert (Sf' : Forall2 (same_entry (same_map same_value)) (ents (a_annotations a)) (ents (a_annotations b))) by exact Sf.
      change (a_annotations a = a_annotations b). assert (E : ents (a_annotations b) = []) by (destruct (ents (a_annotations b)); [reflexivity|rewrite Ha in Sf'; inversion Sf']).
      destruct A16 as [kv [_ E1]], B16 as [kv' [_ E2]]. assert (O1 : oord (a_annotations a) = false) by (rewrite E1; apply mputs_oord).
      assert (O2 : oord (a_annotations b) = false) by (rewrite E2; apply mputs_oord). clear - Ha E O1 O2.
      destruct (a_annotations a), (a_annotations b). cbn in *. congruence.
    - assert (A18' := A18). assert (B18' := B18). destruct A18' as [kv [_ E1]], B18' as [kv' [_ E2]].
      apply extra_read in A18 as [_ A18]. apply extra_read in B18 as [_ B18].
      apply same_extras_eq; [exact Sf| | |].
      + change (oord (a_extra a) = oord (a_extra b)). rewrite E1, E2, !kputs_oord. reflexivity.
      + intros k g Hg. destruct (A18 k g Hg) as [p [_ [_ [_ ->]]]]. eexists. reflexivity.
      + intros k g Hg. destruct (B18 k g Hg) as [p [_ [_ [_ ->]]]]. eexists. reflexivity.
    - pose proof (resources_entries _ _ A17) as [_ R1]. pose proof (resources_entries _ _ B17) as [_ R2].
      apply (same_map_eq same_value); [exact Sf| |].
      + change (oord (a_resources a) = oord (a_resources b)). rewrite A17, B17, !mputs_oord. reflexivity.
      + intros k v w Hv Hw Hr. apply same_nodes; [exact Hr| |]. { apply (R1 k v Hv). } { apply (R2 k w Hw). }
    - apply filled_oord in B15. destruct (a_types b) as [es o]. cbn in *. subst. reflexivity.
  Qed.

  Lemma api_again t0 l0 a n a' : api_unmarshal (Map t0 l0) new_api = Ok a -> exact_keys (a_extra a) ->
    (forall s d, In (s, d) (ents (a_types a)) -> regular d) ->
    api_marshal a = Ok n -> api_unmarshal n new_api = Ok a' -> api_marshal a' = Ok n.
  Proof.
    intros R0 Hx Hreg W R. pose proof (proj2 (proj1 (api_read_iff _ _ _) R0)) as D.
    pose proof (api_read_tidy _ _ D) as Ht. apply (api_written_iff a n Ht) in W as [l [-> W]].
    pose proof (proj1 (api_read_iff _ _ _) R) as [Acc D'].
    assert (Ha : ents (a_annotations a) = []).
    { destruct (ents (a_annotations a)) as [|[s u] r] eqn:Ea; [reflexivity|exfalso].
      destruct D as (_ & _ & _ & _ & _ & _ & _ & _ & _ & _ & _ & _ & _ & _ & _ & A16 & _). apply anns_entries in A16 as [_ A16].
      destruct (A16 s u) as [Ps [p [_ [_ Ru]]]]; [rewrite Ea; left; reflexivity|]. apply annotation_read in Ru as [Ou _].
      destruct (wrote_in _ _ (KStr s, untyped_to_yaml u) W) as [[pk pv] [Hi [P1 P2]]].
      { apply in_flat_map. exists AAnnotations. split; [apply api_order_all|]. cbn [api_seg]. rewrite Ea. left. reflexivity. }
      cbn in P1, P2. injection P1 as <-. destruct (ordered_seq _ _ _ _ Ou P2) as [sq ->].
      rewrite Forall_forall in Acc. destruct (Acc _ Hi) as (_ & _ & _ & _ & _ & _ & _ & _ & X & _). destruct X as [v X]; [|discriminate X].
      cbn [fst]. unfold is_annotation_key. cbn. exact Ps. }
    destruct (api_back (bare a) (bare_returns l0 a D Ha Hx)) as [l1 [a0 [W0 [R1 S]]]].
    assert (D0 : api_document l1 a0) by (apply api_reads; exact R1).
    assert (T0 : ents (a_types a0) = []).
    { pose proof (S ATypes) as St. cbn [aget same_afield] in St. unfold same_map in St. cbn in St. inversion St. reflexivity. }
    pose proof (bare_same l0 l1 a a0 D D0 T0 Ha S) as E0. subst a0.
    rewrite segs_order in W, W0. change (api_seg (bare a) ATypes) with (@nil (gkey * res node)) in W0. rewrite app_nil_r in W0.
    rewrite (segs_front (bare a) a) in W0 by (intros f Hf; apply bare_seg; exact Hf).
    apply Forall2_app_inv_l in W as [l1' [lt [W1 [W2 El]]]].
    assert (l1' = l1) by (eapply wrote_same; eassumption). subst l1' l.
    cbn [api_unmarshal map_fold] in R. unfold api_unmarshal, map_fold in R. rewrite fold_res_app, R1 in R. cbn [bind] in R.
    assert (Ht' : api_tidy a') by (eapply api_read_tidy; exact D').
    apply (api_written_iff a' _ Ht'). eexists. split; [reflexivity|]. rewrite segs_order.
    cbn [api_seg] in W2. unfold if_seg in W2. destruct (nonempty (a_types a)) eqn:Ne.
    - apply wrote_one in W2 as [nt [Wt ->]]. cbn [fold_res] in R. apply bind_ok in R as [a2 [R2 R]]. injection R as <-.
      cbv [api_assign] in R2. cbn in R2. apply bind_ok in R2 as [m' [R2 R]]. injection R as <-.
      destruct D as (_ & _ & _ & _ & _ & _ & _ & _ & _ & _ & _ & _ & _ & _ & A15 & _).
      destruct (map_again hat to_yaml (a_types a) nt m') as [M1 M2].
      + eapply filled_oord. exact A15.
      + destruct A15 as [kvs [_ ->]]. apply mputs_nodup. constructor.
      + intros k v nv v' Hi. apply filled_came in A15. rewrite Forall_forall in A15. destruct (A15 _ Hi) as [nn Hn].
        eapply regular_again; [eapply Hreg; exact Hi|exact Hn].
      + exact Wt.
      + exact R2.
      + apply Forall2_app.
        * rewrite (segs_front _ a); [exact W1|]. intros f Hf. rewrite <- (bare_seg a f Hf). destruct f; try reflexivity. congruence.
        * cbn [api_seg a_set_types a_types]. rewrite M2, Ne. cbn [if_seg]. constructor; [|constructor]. split; [reflexivity|exact M1].
    - apply wrote_nil in W2. subst lt. cbn [fold_res] in R. injection R as <-. rewrite app_nil_r.
      change (api_seg (bare a) ATypes) with (@nil (gkey * res node)). rewrite app_nil_r.
      rewrite (segs_front (bare a) a) by (intros f Hf; apply bare_seg; exact Hf). exact W1.
  Qed.

  (** ** Libraries *)

  Definition lib_bare (a : library) : library := l_set_types anew_unordered a.
  Definition lib_front : list lfield := removelast lib_order.
  Lemma lib_front_order : lib_order = (lib_front ++ [LTypes])%list.
  Proof. reflexivity. Qed.
  Lemma lib_front_not f : In f lib_front -> f <> LTypes.
  Proof. intros H ->. cbn in H. repeat (destruct H as [H|H]; [discriminate H|]). exact H. Qed.

  Lemma lib_bare_seg m a f : f <> LTypes -> lib_seg (l_set_types m a) f = lib_seg a f.
  Proof. intros Hf. destruct f; try reflexivity. congruence. Qed.

  Lemma lib_segs_front a b : (forall f, f <> LTypes -> lib_seg a f = lib_seg b f) -> flat_map (lib_seg a) lib_front = flat_map (lib_seg b) lib_front.
  Proof. intros H. apply flat_map_in_ext. intros f Hf. apply H, lib_front_not, Hf. Qed.

  Lemma lib_segs_order a : flat_map (lib_seg a) lib_order = (flat_map (lib_seg a) lib_front ++ lib_seg a LTypes)%list.
  Proof. rewrite lib_front_order, flat_map_app. cbn [flat_map]. rewrite app_nil_r. reflexivity. Qed.

  Lemma lib_bare_returns l a : fold_res lib_assign new_library l = Ok a -> lib_actual l a ->
    l_annotationTypes a = mkMap [] false ->
    ents (l_annotations a) = [] -> exact_keys (l_extra a) -> plain_keys (l_extra a) -> lib_returns (lib_bare a).
  Proof.
    intros Hf H Hn Ha Hx Hp. pose proof (lib_extras_read l a Hf) as [X1 X2].
    destruct H as (A1 & A2 & A3 & A4 & A5 & A6 & A7 & A8 & A9).
    assert (As : forall n v, as_is n v -> has_node v) by (intros n v ->; exists n; reflexivity).
    apply extra_read in A9 as [_ A9].
    split; [|split; [exact (filled_returns _ _ _ _ A2 (fun _ _ _ => I))|]].
    { unfold lib_tidy. change (l_annotations (lib_bare a)) with (l_annotations a). change (l_extra (lib_bare a)) with (l_extra a). rewrite Ha.
      split; [constructor|]. split; [exact X1|]. split.
      - intros f Hi Hk. split; [intros []|]. intros Hc. apply X2 in Hc as [_ [_ Hc]]. apply Hc.
        destruct f; cbn; try tauto; exfalso; apply Hk; reflexivity.
      - intros s []. }
    do 3 (split; [eapply filled_returns; [eassumption|exact As]|]).
    split; [change (ents (l_annotationTypes a) = []); rewrite Hn; reflexivity|].
    split; [split; [intros E; exfalso; apply E; reflexivity|split; constructor]|].
    split; [change (l_annotations (lib_bare a)) with (l_annotations a); rewrite Ha; constructor|].
    change (l_extra (lib_bare a)) with (l_extra a).
    assert (Kr : forall k v, In (k, v) (ents (l_extra a)) -> key_returns k).
    { intros k v Hi. destruct (A9 k v Hi) as [p [_ [_ [K _]]]]. eapply scalar_returns; [exact K|]. intros x ->. eapply Hx. exact Hi. }
    split; apply Forall_forall; intros [k v] Hi; cbn [fst snd].
    - split; [eapply Kr; exact Hi|]. split; [destruct (A9 k v Hi) as [p [_ [_ [_ ->]]]]; eexists; reflexivity|].
      intros s ->. assert (Hs : In (KStr s) (map fst (ents (l_extra a)))) by (apply (in_map fst) in Hi; exact Hi).
      apply X2 in Hs as [Y1 [Y2 _]]. intros [Q|Q]; congruence.
    - intros n Kn. destruct (Kr k v Hi) as [n' [Kn' Sc]]. assert (n' = n) by congruence. subst n'. clear Kn'.
      destruct k as [|b|s|z|x|u]; cbn [key_node] in Kn; try discriminate Kn; injection Kn as <-.
      + cbn. intuition discriminate.
      + destruct b; cbn; intuition discriminate.
      + cbn [value str_node]. assert (Hs : In (KStr s) (map fst (ents (l_extra a)))) by (apply (in_map fst) in Hi; exact Hi).
        apply X2 in Hs as [_ [_ Y]]. exact Y.
      + intros Hin. unfold int_node in *. cbn [value] in Hin. cbn in Hin.
        repeat (destruct Hin as [Hin|Hin]; [rewrite <- Hin in Sc; vm_compute in Sc; discriminate Sc|]). exact Hin.
      + specialize (Hp x v Hi). unfold float_node in *. destruct (float_text x) as [t s]. exact Hp.
  Qed.

  Lemma lib_bare_same l l' a b : lib_actual l a -> lib_actual l' b -> l_annotationTypes a = mkMap [] false -> ents (l_types b) = [] ->
    ents (l_annotations a) = [] -> same_library (lib_bare a) b -> b = lib_bare a.
  Proof.
    intros H H' Hn Ht Ha S.
    destruct H as (A1 & A2 & A3 & A4 & A5 & A6 & A7 & A8 & A9).
    destruct H' as (B1 & B2 & B3 & B4 & B5 & B6 & B7 & B8 & B9).
    apply lib_ext. intros f. pose proof (S f) as Sf. symmetry. destruct f; cbn [lget same_lfield] in *; try exact Sf.
    - eapply filled_eq; eassumption.
    - eapply filled_as_is_eq; [exact A3|exact B3|exact Sf].
    - eapply filled_as_is_eq; [exact A4|exact B4|exact Sf].
    - change (l_annotationTypes a = l_annotationTypes b). congruence.
    - assert (Sf' : Forall2 (same_entry (same_map same_value)) (ents (l_annotations a)) (ents (l_annotations b))) by exact Sf.
      change (l_annotations a = l_annotations b). assert (E : ents (l_annotations b) = []) by (destruct (ents (l_annotations b)); [reflexivity|rewrite Ha in Sf'; inversion Sf']).
      destruct A8 as [kv [_ E1]]. assert (O1 : oord (l_annotations a) = false) by (rewrite E1; apply mputs_oord).
      assert (O2 : oord (l_annotations b) = false) by (eapply filled_oord; exact B8). clear - Ha E O1 O2.
      destruct (l_annotations a), (l_annotations b). cbn in *. congruence.
    - eapply filled_as_is_eq; [exact A5|exact B5|exact Sf].
    - assert (A9' := A9). assert (B9' := B9). destruct A9' as [kv [_ E1]], B9' as [kv' [_ E2]].
      apply extra_read in A9 as [_ A9]. apply extra_read in B9 as [_ B9].
      apply same_extras_eq; [exact Sf| | |].
      + change (oord (l_extra a) = oord (l_extra b)). rewrite E1, E2, !kputs_oord. reflexivity.
      + intros k g Hg. destruct (A9 k g Hg) as [p [_ [_ [_ ->]]]]. eexists. reflexivity.
      + intros k g Hg. destruct (B9 k g Hg) as [p [_ [_ [_ ->]]]]. eexists. reflexivity.
    - apply filled_oord in B7. destruct (l_types b) as [es o]. cbn in *. subst. reflexivity.
  Qed.

  Lemma lib_again t0 l0 a n a' : lib_unmarshal (Map t0 l0) new_library = Ok a -> Forall (fun p => text_key "annotationTypes" p = false) l0 ->
    exact_keys (l_extra a) -> plain_keys (l_extra a) ->
    (forall s d, In (s, d) (ents (l_types a)) -> regular d) ->
    lib_marshal a = Ok n -> lib_unmarshal n new_library = Ok a' -> lib_marshal a' = Ok n.
  Proof.
    intros R0 Hn Hx Hp Hreg W R. pose proof (proj2 (proj1 (lib_read_iff _ _ _ Hn) R0)) as D.
    assert (Hat : l_annotationTypes a = mkMap [] false) by exact (annotation_types_unread l0 new_library a R0).
    assert (Pa : forall s u, In (s, u) (ents (l_annotations a)) -> starts_paren s = true /\ exists p, In p l0 /\ is_annotation_key (fst p) = true /\ read_annotation (snd p) = Ok u).
    { destruct D as (_ & _ & _ & _ & _ & _ & _ & A8 & _). apply anns_entries in A8 as [_ A8]. exact A8. }
    pose proof (lib_extras_read l0 a R0) as [X1 X2].
    assert (Ht : lib_tidy a).
    { destruct D as (_ & _ & _ & _ & _ & _ & _ & A8 & _). apply anns_entries in A8 as [A8 _]. split; [exact A8|]. split; [exact X1|]. split.
      - intros f Hi Hk. split.
        + intros Hc. apply keys_in in Hc as [u Hc]. apply Pa in Hc as [Hc _]. destruct f; discriminate Hc || (apply Hk; reflexivity).
        + intros Hc. apply X2 in Hc as [_ [_ Hc]]. apply Hc. destruct f; cbn; try tauto; exfalso; apply Hk; reflexivity.
      - intros s Hs Hc. apply X2 in Hc as [_ [Hc _]]. apply keys_in in Hs as [u Hs]. apply Pa in Hs as [Hs _]. congruence. }
    apply (lib_written_iff a n Ht) in W as [l [-> W]].
    pose proof (proj1 (lib_read_all_iff _ _ _) R) as [Acc _].
    assert (Ha : ents (l_annotations a) = []).
    { destruct (ents (l_annotations a)) as [|[s u] r] eqn:Ea; [reflexivity|exfalso].
      destruct (Pa s u) as [Ps [p [_ [_ Ru]]]]; [left; reflexivity|]. apply annotation_read in Ru as [Ou _].
      destruct (wrote_in _ _ (KStr s, untyped_to_yaml u) W) as [[pk pv] [Hi [P1 P2]]].
      { apply in_flat_map. exists LAnnotations. split; [apply lib_order_all|]. cbn [lib_seg]. rewrite Ea. left. reflexivity. }
      cbn in P1, P2. injection P1 as <-. destruct (ordered_seq _ _ _ _ Ou P2) as [sq ->].
      rewrite Forall_forall in Acc. destruct (Acc _ Hi) as (_ & _ & _ & _ & _ & _ & X & _). destruct X as [v X]; [|discriminate X].
      cbn [fst]. unfold is_annotation_key. cbn. exact Ps. }
    destruct (lib_back (lib_bare a) (lib_bare_returns l0 a R0 (lib_reads_all _ _ R0) Hat Ha Hx Hp)) as [l1 [a0 [W0 [R1 S]]]].
    assert (D0 : lib_actual l1 a0) by (apply lib_reads_all; exact R1).
    assert (T0 : ents (l_types a0) = []).
    { pose proof (S LTypes) as St. cbn [lget same_lfield] in St. unfold same_map in St. cbn in St. inversion St. reflexivity. }
    pose proof (lib_bare_same l0 l1 a a0 (lib_reads_all _ _ R0) D0 Hat T0 Ha S) as E0. subst a0.
    rewrite lib_segs_order in W, W0. change (lib_seg (lib_bare a) LTypes) with (@nil (gkey * res node)) in W0. rewrite app_nil_r in W0.
    rewrite (lib_segs_front (lib_bare a) a) in W0 by (intros f Hf; apply lib_bare_seg; exact Hf).
    apply Forall2_app_inv_l in W as [l1' [lt [W1 [W2 El]]]].
    assert (l1' = l1) by (eapply wrote_same; eassumption). subst l1' l.
    unfold lib_unmarshal, map_fold in R. rewrite fold_res_app, R1 in R. cbn [bind] in R.
    cbn [lib_seg] in W2. unfold if_seg in W2. destruct (nonempty (l_types a)) eqn:Ne.
    - apply wrote_one in W2 as [nt [Wt ->]]. cbn [fold_res] in R. apply bind_ok in R as [a2 [R2 R]]. injection R as <-.
      cbv [lib_assign] in R2. cbn in R2. apply bind_ok in R2 as [m' [R2 R]]. injection R as <-.
      assert (Ht' : lib_tidy (l_set_types m' (lib_bare a))) by exact Ht.
      apply (lib_written_iff _ _ Ht'). eexists. split; [reflexivity|]. rewrite lib_segs_order.
      destruct D as (_ & _ & _ & _ & _ & _ & A7 & _).
      destruct (map_again hat to_yaml (l_types a) nt m') as [M1 M2].
      + eapply filled_oord. exact A7.
      + destruct A7 as [kvs [_ ->]]. apply mputs_nodup. constructor.
      + intros k v nv v' Hi. apply filled_came in A7. rewrite Forall_forall in A7. destruct (A7 _ Hi) as [nn Hnn].
        eapply regular_again; [eapply Hreg; exact Hi|exact Hnn].
      + exact Wt.
      + exact R2.
      + apply Forall2_app.
        * rewrite (lib_segs_front _ a); [exact W1|]. intros f Hf. rewrite lib_bare_seg by exact Hf. apply lib_bare_seg. exact Hf.
        * cbn [lib_seg l_set_types l_types]. rewrite M2, Ne. cbn [if_seg]. constructor; [|constructor]. split; [reflexivity|exact M1].
    - apply wrote_nil in W2. subst lt. cbn [fold_res] in R. injection R as <-. rewrite app_nil_r.
      assert (Ht' : lib_tidy (lib_bare a)) by exact Ht.
      apply (lib_written_iff _ _ Ht'). eexists. split; [reflexivity|]. rewrite lib_segs_order.
      change (lib_seg (lib_bare a) LTypes) with (@nil (gkey * res node)). rewrite app_nil_r.
      rewrite (lib_segs_front (lib_bare a) a) by (intros f Hf; apply lib_bare_seg; exact Hf). exact W1.
  Qed.
End ApiIdem.
