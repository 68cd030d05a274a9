(** C69 for API documents and libraries: which of those that were read come back from what they are written as. *)
From Coq Require Import SpecFloat.
From Verif Require Import Base Num OMap OMapSpec Keys Yaml Values Assign Formats Meta Out Xml Example DataType Marshal Doc Api Library
  AssignProofs TypeFacts Fields FieldProofs FacetSpec FacetProofs DocProofs OrderProofs PathProofs Lens Segs ExProofs WriteProofs ReadInv Same ExRound TypeSegs WriteSpec
  RoundSpec RoundProofs WasRead Writable Stable Crash Parts ApiFields ApiSpec ApiProofs LibProofs ApiWrite ApiRoundSpec ApiRound LibRound ApiOrder ApiReadRound LibReadRound LibAll
  ApiMore IdemSpec Idem ApiIdem Exact.

(** No annotations, no documentation entries but empty ones, settled types, and the text of every floating-point key means it again. *)
Definition settled_api {F : FloatIO} (a : api) : Prop :=
  ents (a_annotations a) = [] /\
  Forall (fun d => d = new_doc) (opt_list (a_documentation a)) /\
  (forall s d, In (s, d) (ents (a_types a)) -> settled d) /\
  exact_keys (a_extra a).

Definition settled_lib {F : FloatIO} (a : library) : Prop :=
  ents (l_annotations a) = [] /\
  (forall s d, In (s, d) (ents (l_types a)) -> settled d) /\
  exact_keys (l_extra a).

(** Floating-point numbers are not written as strings, nor with the name of a part of a library as their text. *)
Definition tame_floats {F : FloatIO} : Prop :=
  forall x, fst (float_text x) <> TStr /\ ~ In (snd (float_text x)) lib_names.

Section ApiExact.
  Context {F : FloatIO}.

  Lemma extras_exact (pick : node * node -> bool) (es : list (gkey * gval)) lx kvs :
    Forall2 wrote (all_seg (fun k => k) to_node es) lx ->
    Forall2 (fun p kv => to_scalar (fst p) = Ok (fst kv) /\ snd kv = GNode (snd p)) (filter pick lx) kvs ->
    es = ents (kputs kvs (mkMap [] false)) ->
    filter pick lx = lx /\ forall a g, In (a, g) es -> exists p, key_node a = Ok p /\ to_scalar p = Ok a.
  Proof.
    intros L Q E.
    assert (Ll : List.length lx = List.length es).
    { apply Forall2_size in L. rewrite <- L. unfold all_seg. apply map_length. }
    pose proof (Forall2_size _ _ _ Q) as Lk. pose proof (kputs_length kvs (mkMap [] false)) as Lp. rewrite <- E in Lp. cbn [ents List.length Nat.add] in Lp.
    pose proof (filter_length_le pick lx) as Lf.
    assert (A : filter pick lx = lx) by (apply filter_length_all; lia). split; [exact A|]. rewrite A in Q, Lk.
    assert (Ek : es = kvs).
    { rewrite E. rewrite kputs_all; [reflexivity|]. rewrite <- E. cbn. lia. }
    rewrite Ek in L |- *. clear -L Q. revert L. induction Q as [|p [a g] lx kvs [S1 _] _ IH]; intros L a' g' Hi; [destruct Hi|].
    cbn in L. inversion L as [|x y xs ys [K1 K2] K3]; subst. cbn in K1, S1. destruct Hi as [Hi|Hi]; [injection Hi as <- <-; eauto|eapply IH; eassumption].
  Qed.

  Lemma filter_nothing {A} (p : A -> bool) l : (forall a, In a l -> p a = false) -> filter p l = [].
  Proof. induction l as [|a l IH]; intros H; [reflexivity|]. cbn. rewrite (H a (or_introl eq_refl)). apply IH. intros b Hb. apply H. right. exact Hb. Qed.

  Lemma map_stable {V} (dec : node -> res V) (vn : V -> res node) (m : amap string V) n : oord m = false -> NoDup (map fst (ents m)) ->
    (forall k v, In (k, v) (ents m) -> exists nv, vn v = Ok nv /\ dec nv = Ok v) ->
    map_to_yaml skey_node vn m = Ok n -> read_amap dec (mkMap [] false) n = Ok m.
  Proof.
    intros O N H W. destruct (write_read_amap dec vn eq false m n O N) as [l [R S]]; [|exact W|].
    - intros k v nv Hi Hv. destruct (H k v Hi) as [nv' [E D]]. assert (nv' = nv) by congruence. subst. eauto.
    - rewrite R. f_equal. destruct m as [es b]. cbn in O, S. subst b. f_equal. clear -S.
      induction S as [|[a v] [b w] x y [E1 E2] S IH]; [reflexivity|]. cbn in E1, E2. congruence.
  Qed.

  (** ** API documents *)

  Lemma field_cases (f : afield) : f = ADocumentation \/ f <> ADocumentation.
  Proof. destruct f; (left; reflexivity) || (right; discriminate). Qed.

  Lemma api_seg_named a f l p : api_free f = false -> Forall2 wrote (api_seg a f) l -> In p l -> fst p = str_node (api_key f).
  Proof.
    intros Hf W Hi. destruct (in_wrote _ _ _ W Hi) as [[k r] [He [K _]]]. apply (in_map fst) in He. rewrite api_seg_keys in He.
    apply (api_named_keys a f _ Hf) in He as [He _]. cbn in He, K. subst k. cbn in K. congruence.
  Qed.

  Lemma api_plain l0 a fs : api_document l0 a -> ents (a_annotations a) = [] -> ~ In AExtra fs -> forall l, Forall2 wrote (flat_map (api_seg a) fs) l ->
    forall p, In p l -> exists f, In f fs /\ (api_free f = false /\ fst p = str_node (api_key f) \/ exists s, slash s = true /\ fst p = str_node s).
  Proof.
    intros D Ha. induction fs as [|f fs IH]; intros N l W p Hi; cbn [flat_map] in W; [inversion W; subst; destruct Hi|].
    apply Forall2_app_inv_l in W as [l1 [l2 [W1 [W2 ->]]]]. apply in_app_or in Hi as [Hi|Hi].
    - exists f. split; [left; reflexivity|]. destruct (api_free f) eqn:Ef; [right|left; split; [reflexivity|eapply api_seg_named; eassumption]].
      destruct f; try discriminate Ef; cbn [api_seg] in W1.
      + rewrite Ha in W1. inversion W1; subst. destruct Hi.
      + exfalso. apply N. left. reflexivity.
      + destruct (in_wrote _ _ _ W1 Hi) as [[k r] [He [K _]]]. apply in_map_iff in He as [[s v] [E He]]. injection E as <- <-.
        destruct D as (_ & _ & _ & _ & _ & _ & _ & _ & _ & _ & _ & _ & _ & _ & _ & _ & A17 & _). apply resources_entries in A17 as [_ A17]. destruct (A17 s v He) as [Hs _].
        exists s. split; [exact Hs|]. cbn in K. congruence.
    - destruct (IH (fun H => N (or_intror H)) l2 W2 p Hi) as [g [Hg H]]. exists g. split; [right; exact Hg|exact H].
  Qed.

  Lemma api_exact t0 l0 a n : api_unmarshal (Map t0 l0) new_api = Ok a -> api_marshal a = Ok n -> api_unmarshal n new_api = Ok a -> settled_api a.
  Proof.
    intros R0 W R. pose proof (proj2 (proj1 (api_read_iff _ _ _) R0)) as D.
    pose proof (api_read_tidy _ _ D) as Ht. apply (api_written_iff a n Ht) in W as [l [-> W]].
    pose proof (proj1 (api_read_iff _ _ _) R) as [Acc D'].
    assert (Ha : ents (a_annotations a) = []).
    { destruct (ents (a_annotations a)) as [|[s u] r] eqn:Ea; [reflexivity|exfalso].
      destruct D as (_ & _ & _ & _ & _ & _ & _ & _ & _ & _ & _ & _ & _ & _ & _ & A16 & _). apply anns_entries in A16 as [_ A16].
      destruct (A16 s u) as [Ps [p [_ [_ Ru]]]]; [rewrite Ea; left; reflexivity|]. apply annotation_read in Ru as [Ou _].
      destruct (wrote_in _ _ (KStr s, untyped_to_yaml u) W) as [[pk pv] [Hi [P1 P2]]].
      { apply in_flat_map. exists AAnnotations. split; [apply api_order_all|]. cbn [api_seg]. rewrite Ea. left. reflexivity. }
      cbn in P1, P2. injection P1 as <-. destruct (ordered_seq _ _ _ _ Ou P2) as [sq ->].
      rewrite Forall_forall in Acc. destruct (Acc _ Hi) as (_ & _ & _ & _ & _ & _ & _ & _ & X & _). destruct X as [v X]; [|discriminate X].
      cbn [fst]. unfold is_annotation_key. cbn. exact Ps. }
    pose (P := [ATitle; AVersion; ABaseURI; ADescription; AProtocols; AMediaType; ADocumentation; ASecuredBy; AUses; ASecuritySchemes; ABaseURIParameters; ATraits;
      AAnnotationTypes; AResourceTypes; AAnnotations]).
    assert (Eo : flat_map (api_seg a) api_order = flat_map (api_seg a) P ++ api_seg a AExtra ++ flat_map (api_seg a) [AResources] ++ api_seg a ATypes).
    { change api_order with (P ++ [AExtra] ++ [AResources] ++ [ATypes]). rewrite !flat_map_app. cbn [flat_map]. rewrite !app_nil_r. reflexivity. }
    rewrite Eo in W. clear Eo. apply Forall2_app_inv_l in W as [l1 [r1 [W1 [W E1]]]]. apply Forall2_app_inv_l in W as [l2 [r2 [W2 [W E2]]]].
    apply Forall2_app_inv_l in W as [l3 [l4 [W3 [W4 E3]]]]. subst l r1 r2.
    pose proof (api_plain l0 a P D Ha ltac:(cbn; intuition discriminate) l1 W1) as Y1.
    pose proof (api_plain l0 a [AResources] D Ha ltac:(cbn; intuition discriminate) l3 W3) as Y3.
    pose proof (fun p => api_seg_named a ATypes l4 p eq_refl W4) as Y4.
    assert (Sl : forall p s, slash s = true -> fst p = str_node s -> api_extra_key p = false /\ is_types_key p = false /\ named_key "documentation" p = false).
    { clear. intros p s Hs E. unfold api_extra_key, is_types_key, named_key, is_resource_key, is_annotation_key. rewrite E. cbn [is_string node_tag str_node value andb].
      destruct s as [|c s]; [discriminate Hs|]. cbn in Hs. apply Ascii.eqb_eq in Hs. subst c. repeat split. }
    assert (Nm : forall p f, api_free f = false -> fst p = str_node (api_key f) ->
      api_extra_key p = false /\ (f <> ATypes -> is_types_key p = false) /\ (f <> ADocumentation -> named_key "documentation" p = false)).
    { clear. intros p f Hf E. unfold api_extra_key, is_types_key, named_key, is_resource_key, is_annotation_key. rewrite E.
      destruct f; try discriminate Hf; (split; [reflexivity|]); split; intros N; try reflexivity; congruence. }
    destruct D' as (_ & _ & _ & _ & _ & _ & _ & A8 & _ & _ & _ & _ & _ & _ & A15 & _ & _ & [kvs [A18 E18]]).
    assert (X1 : filter api_extra_key l1 = []).
    { apply filter_nothing. intros p Hp. destruct (Y1 p Hp) as [f [_ [[Hf E]|[s [Hs E]]]]]; [exact (proj1 (Nm p f Hf E))|exact (proj1 (Sl p s Hs E))]. }
    assert (X3 : filter api_extra_key l3 = []).
    { apply filter_nothing. intros p Hp. destruct (Y3 p Hp) as [f [_ [[Hf E]|[s [Hs E]]]]]; [exact (proj1 (Nm p f Hf E))|exact (proj1 (Sl p s Hs E))]. }
    assert (X4 : filter api_extra_key l4 = []).
    { apply filter_nothing. intros p Hp. exact (proj1 (Nm p ATypes eq_refl (Y4 p Hp))). }
    rewrite !filter_app, X1, X3, X4, !app_nil_r in A18. cbn [app] in A18.
    destruct (extras_exact api_extra_key (ents (a_extra a)) l2 kvs W2 A18 (f_equal ents E18)) as [All Hk].
    assert (X2 : forall p, In p l2 -> api_extra_key p = true) by (intros p Hp; rewrite <- All in Hp; apply filter_In in Hp; tauto).
    assert (Xn : forall p s, In s api_names -> api_extra_key p = true -> named_key s p = false).
    { clear. intros p s Hs H. unfold api_extra_key, named_key in *. destruct (is_string (fst p)); [|reflexivity]. cbn [andb] in *. apply negb_true_iff in H.
      apply orb_false_iff in H as [_ H]. destruct (String.eqb (value (fst p)) s) eqn:E; [|reflexivity]. apply String.eqb_eq in E.
      assert (X : existsb (String.eqb (value (fst p))) ("" :: api_names) = true) by (apply existsb_exists; exists s; split; [right; exact Hs|apply String.eqb_eq; exact E]). congruence. }
    split; [exact Ha|]. split; [|split].
    - destruct A8 as [ds [A8 E8]]. rewrite E8. assert (N : Forall (fun d => d = new_doc) ds); [|destruct ds; [constructor|exact N]].
      assert (It : forall m, In m (items_under "documentation" (l1 ++ l2 ++ l3 ++ l4)) -> m = Map TMap []).
      { intros m Hm. unfold items_under, sections in Hm. apply in_flat_map in Hm as [v [Hv Hm]]. apply in_map_iff in Hv as [p [<- Hp]]. apply filter_In in Hp as [Hp Hn].
        rewrite !in_app_iff in Hp. destruct Hp as [Hp|[Hp|[Hp|Hp]]].
        - destruct (in_wrote _ _ _ W1 Hp) as [[k r] [He [K Wr]]]. apply in_flat_map in He as [f [Hf He]].
          assert (f = ADocumentation).
          { destruct (field_cases f) as [Ef|Ef]; [exact Ef|exfalso]. destruct (api_free f) eqn:Fr.
            - destruct f; try discriminate Fr; cbn in Hf; try (intuition discriminate). cbn [api_seg] in He. rewrite Ha in He. destruct He.
            - apply (in_map fst) in He. rewrite api_seg_keys in He. apply (api_named_keys a f _ Fr) in He as [He _]. cbn in He, K. subst k. cbn in K. injection K as K.
              rewrite (proj2 (proj2 (Nm p f Fr (eq_sym K))) Ef) in Hn. discriminate Hn. }
          subst f. cbn [api_seg] in He. destruct (a_documentation a) as [ds'|]; [|destruct He]. cbn [option_map opt_seg] in He. destruct He as [He|[]]. injection He as <- <-.
          cbn in Wr. unfold docs_node in Wr. apply bind_ok in Wr as [ns [Wn Wr]]. injection Wr as Wr. rewrite <- Wr in Hm. cbn in Hm. apply map_res_ok in Wn.
          apply (Forall2_in_r _ _ _ _ Wn) in Hm as [d [_ Hd]]. cbn in Hd. injection Hd as <-. reflexivity.
        - rewrite (Xn p "documentation" ltac:(cbn; tauto) (X2 p Hp)) in Hn. discriminate Hn.
        - destruct (Y3 p Hp) as [f [[<-|[]] [[Hf E]|[s [Hs E]]]]]; [discriminate Hf|]. rewrite (proj2 (proj2 (Sl p s Hs E))) in Hn. discriminate Hn.
        - rewrite (proj2 (proj2 (Nm p ATypes eq_refl (Y4 p Hp))) ltac:(discriminate)) in Hn. discriminate Hn. }
      apply Forall_forall. intros d Hd. apply (Forall2_in_r _ _ _ _ A8) in Hd as [m [Hm [t [l [E [_ Dd]]]]]]. apply It in Hm. subst m. injection E as <- <-.
      destruct Dd as [T1 [T2 [kv [T3 T4]]]]. cbn in T1, T2, T3. inversion T3; subst. destruct d as [x y z]. cbn in *. subst. reflexivity.
    - intros s d Hi. cbn [api_seg] in W4. unfold if_seg in W4. destruct (nonempty (a_types a)) eqn:Ne; [|unfold nonempty in Ne; destruct (ents (a_types a)); [destruct Hi|discriminate Ne]].
      apply wrote_one in W4 as [nt [Wt ->]].
      assert (T1 : filter is_types_key l1 = []).
      { apply filter_nothing. intros p Hp. destruct (Y1 p Hp) as [f [Hf [[Fr E]|[u [Hs E]]]]]; [|exact (proj1 (proj2 (Sl p u Hs E)))].
        apply (Nm p f Fr E). intros ->. cbn in Hf. intuition discriminate. }
      assert (T2 : filter is_types_key l2 = []).
      { apply filter_nothing. intros p Hp. unfold is_types_key. rewrite !Xn by (cbn; tauto || exact (X2 p Hp)). reflexivity. }
      assert (T3 : filter is_types_key l3 = []).
      { apply filter_nothing. intros p Hp. destruct (Y3 p Hp) as [f [[<-|[]] [[Fr E]|[u [Hs E]]]]]; [discriminate Fr|exact (proj1 (proj2 (Sl p u Hs E)))]. }
      assert (T4 : filter is_types_key [(str_node "types", nt)] = [(str_node "types", nt)]) by reflexivity.
      rewrite !filter_app, T1, T2, T3, T4 in A15. cbn [app map snd flat_map] in A15. rewrite app_nil_r in A15.
      destruct A15 as [kt [A15 E15]].
      destruct D as (_ & _ & _ & _ & _ & _ & _ & _ & _ & _ & _ & _ & _ & _ & B15 & _).
      assert (O := filled_oord _ _ _ B15).
      assert (Nd : NoDup (map fst (ents (a_types a)))) by (destruct B15 as [kb [_ ->]]; apply mputs_nodup; constructor).
      apply filled_came in B15. rewrite Forall_forall in B15. destruct (B15 _ Hi) as [n0 R1].
      assert (Em : exists lt, nt = Map TMap lt).
      { unfold types_to_yaml, map_to_yaml in Wt. rewrite O in Wt. apply bind_ok in Wt as [lt [_ Wt]]. injection Wt as <-. eauto. }
      destruct Em as [lt ->]. cbn [pairs_of] in A15.
      destruct (map_back to_yaml (fun n d => hat n = Ok d) (a_types a) TMap lt kt O Nd Wt A15 E15 s d Hi) as [n' [V1 V2]].
      exact (exact n0 d n' R1 V1 V2).
    - intros x v Hi. destruct (Hk _ _ Hi) as [p [K1 K2]]. cbn in K1. injection K1 as K1. rewrite K1. exact K2.
  Qed.

  Lemma api_settled_back t0 l0 a : api_unmarshal (Map t0 l0) new_api = Ok a -> settled_api a ->
    exists n, api_marshal a = Ok n /\ api_unmarshal n new_api = Ok a.
  Proof.
    intros R0 [Ha [Hd [Hty Hx]]]. destruct (api_read_writes _ _ R0) as [n W]. exists n. split; [exact W|].
    pose proof (proj2 (proj1 (api_read_iff _ _ _) R0)) as D.
    pose proof (api_read_tidy _ _ D) as Ht. apply (api_written_iff a n Ht) in W as [l [-> W]].
    destruct (api_back (bare a) (bare_returns l0 a D Ha Hx)) as [l1 [a0 [W0 [R1 S]]]].
    assert (D0 : api_document l1 a0) by (apply api_reads; exact R1).
    assert (T0 : ents (a_types a0) = []).
    { pose proof (S ATypes) as St. cbn [aget same_afield] in St. unfold same_map in St. cbn in St. inversion St. reflexivity. }
    pose proof (bare_same l0 l1 a a0 D D0 T0 Ha S) as E0. subst a0.
    rewrite segs_order in W, W0. change (api_seg (bare a) ATypes) with (@nil (gkey * res node)) in W0. rewrite app_nil_r in W0.
    rewrite (segs_front (bare a) a) in W0 by (intros f Hf; apply bare_seg; exact Hf).
    apply Forall2_app_inv_l in W as [l1' [lt [W1 [W2 El]]]].
    assert (l1' = l1) by (eapply wrote_same; eassumption). subst l1' l.
    unfold api_unmarshal, map_fold. rewrite fold_res_app, R1. cbn [bind].
    destruct D as (_ & _ & _ & _ & _ & _ & _ & _ & _ & _ & _ & _ & _ & _ & A15 & _).
    assert (O := filled_oord _ _ _ A15).
    assert (Eb : a_set_types (a_types a) (bare a) = a).
    { assert (Ed : option_map (map (fun _ => new_doc)) (a_documentation a) = a_documentation a).
      { destruct (a_documentation a) as [ds|]; [|reflexivity]. cbn in Hd |- *. f_equal. induction Hd as [|d ds -> _ IH]; [reflexivity|]. cbn. f_equal. exact IH. }
      unfold bare. rewrite Ed. destruct a; reflexivity. }
    cbn [api_seg] in W2. unfold if_seg in W2. destruct (nonempty (a_types a)) eqn:Ne.
    - apply wrote_one in W2 as [nt [Wt ->]]. cbn [fold_res]. cbv [api_assign]. cbn -[bare].
      assert (Rt : read_types (a_types (bare a)) nt = Ok (a_types a)).
      { apply (map_stable hat to_yaml); [exact O| | |exact Wt].
        - destruct A15 as [kb [_ ->]]. apply mputs_nodup. constructor.
        - intros k v Hi. apply filled_came in A15. rewrite Forall_forall in A15. destruct (A15 _ Hi) as [nn Hn]. eapply stable; [exact Hn|]. exact (Hty k v Hi). }
      rewrite Rt. cbn [bind]. rewrite Eb. reflexivity.
    - apply wrote_nil in W2. subst lt. cbn [fold_res]. rewrite <- Eb at 2. f_equal.
      unfold nonempty in Ne. destruct (a_types a) as [[|e es] o]; [|discriminate Ne]. cbn in O. subst o. reflexivity.
  Qed.

  Lemma api_comes_back n a : api_unmarshal n new_api = Ok a ->
    ((exists n', api_marshal a = Ok n' /\ api_unmarshal n' new_api = Ok a) <-> settled_api a).
  Proof.
    intros R. destruct n as [t v|t l|t l]; try discriminate R. split; [intros [n' [W R']]; exact (api_exact t l a n' R W R')|exact (api_settled_back t l a R)].
  Qed.

  (** ** Libraries *)

  Lemma lib_seg_named a f l p : lib_free f = false -> Forall2 wrote (lib_seg a f) l -> In p l -> fst p = str_node (lib_key f).
  Proof.
    intros Hf W Hi. destruct (in_wrote _ _ _ W Hi) as [[k r] [He [K _]]]. apply (in_map fst) in He. rewrite lib_seg_keys in He.
    apply (lib_named_keys a f _ Hf) in He as [He _]. cbn in He, K. subst k. cbn in K. congruence.
  Qed.

  Lemma lib_plain a fs : ents (l_annotations a) = [] -> ~ In LExtra fs -> forall l, Forall2 wrote (flat_map (lib_seg a) fs) l ->
    forall p, In p l -> exists f, In f fs /\ lib_free f = false /\ fst p = str_node (lib_key f).
  Proof.
    intros Ha. induction fs as [|f fs IH]; intros N l W p Hi; cbn [flat_map] in W; [inversion W; subst; destruct Hi|].
    apply Forall2_app_inv_l in W as [l1 [l2 [W1 [W2 ->]]]]. apply in_app_or in Hi as [Hi|Hi].
    - exists f. split; [left; reflexivity|]. destruct (lib_free f) eqn:Ef; [|split; [reflexivity|eapply lib_seg_named; eassumption]].
      destruct f; try discriminate Ef; cbn [lib_seg] in W1.
      + rewrite Ha in W1. inversion W1; subst. destruct Hi.
      + exfalso. apply N. left. reflexivity.
    - destruct (IH (fun H => N (or_intror H)) l2 W2 p Hi) as [g [Hg H]]. exists g. split; [right; exact Hg|exact H].
  Qed.

  Lemma lib_tidy_read l a : fold_res lib_assign new_library l = Ok a -> ents (l_annotations a) = [] -> lib_tidy a.
  Proof.
    intros R Ha. pose proof (lib_extras_read l a R) as [X1 X2]. unfold lib_tidy. rewrite Ha. split; [constructor|]. split; [exact X1|]. split.
    - intros f Hi Hk. split; [intros []|]. intros Hc. apply X2 in Hc as [_ [_ Hc]]. apply Hc.
      destruct f; cbn; try tauto; exfalso; apply Hk; reflexivity.
    - intros s [].
  Qed.

  (** The annotations of a library are lost, or what is written cannot be read. *)
  Lemma lib_annotations_lost t0 l0 a n : tame_floats -> lib_unmarshal (Map t0 l0) new_library = Ok a -> lib_marshal a = Ok n -> lib_unmarshal n new_library = Ok a ->
    ents (l_annotations a) = [].
  Proof.
    intros Tm R0 W R. pose proof (lib_reads_all _ _ R0) as D. pose proof (lib_extras_read l0 a R0) as [_ X2].
    unfold lib_marshal in W. rewrite lib_out_segs in W. apply out_to_yaml_ok in W as [l [-> W]].
    pose proof (proj1 (lib_read_all_iff _ _ _) R) as [Acc D'].
    assert (E : lib_ann_pairs l = []).
    { unfold lib_ann_pairs.
      assert (Z : forall p, In p l -> (if text_key "annotationTypes" p then pairs_of (snd p) else if is_annotation_key (fst p) then [p] else []) = []).
      { intros p Hp. destruct (in_wrote _ _ _ W Hp) as [[k r] [He [K Wr]]]. apply puts_keys in He as [He|[]]. apply in_flat_map in He as [f [_ He]].
        cbn [fst snd] in K, Wr. destruct (lib_free f) eqn:Fr.
        - destruct f; try discriminate Fr; cbn [lib_seg] in He.
          + apply in_map_iff in He as [[s u] [E He]]. injection E as <- <-. cbn [key_node snd] in K, Wr. injection K as K.
            assert (Ou : oord u = true).
            { destruct D as (_ & _ & _ & _ & _ & _ & _ & A8 & _). apply filled_came in A8. rewrite Forall_forall in A8. destruct (A8 _ He) as [m Hm]. apply annotation_read in Hm as [Ou _]. exact Ou. }
            destruct (ordered_seq _ _ _ _ Ou Wr) as [q Es]. rewrite Es. cbn [pairs_of]. destruct (text_key "annotationTypes" p); [reflexivity|].
            destruct (is_annotation_key (fst p)) eqn:Ek; [|reflexivity]. exfalso. rewrite Forall_forall in Acc.
            destruct (Acc _ Hp) as (_ & _ & _ & _ & _ & _ & X & _). destruct (X Ek) as [v Xv]. rewrite Es in Xv. discriminate Xv.
          + apply in_map_iff in He as [[k' g] [E He]]. cbn [fst snd] in E. injection E as -> _.
            assert (Hin : In k (map fst (ents (l_extra a)))) by (apply (in_map fst) in He; exact He).
            assert (Tx : text_key "annotationTypes" p = false /\ is_annotation_key (fst p) = false).
            { unfold text_key, is_annotation_key. destruct k as [|b|s|z|x|u]; cbn [key_node] in K; try discriminate K; injection K as K; rewrite <- K.
              - split; reflexivity.
              - destruct b; split; reflexivity.
              - cbn [value str_node is_string node_tag andb]. destruct (X2 s Hin) as [_ [Y1 Y2]]. split; [|exact Y1].
                apply String.eqb_neq. intros ->. apply Y2. cbn. tauto.
              - split; [|reflexivity]. cbn [value int_node]. apply String.eqb_neq. intros E. pose proof (decimal_value_print z) as Dz. rewrite E in Dz. vm_compute in Dz. discriminate Dz.
              - destruct (Tm x) as [T1 T2]. unfold float_node. cbn [value is_string node_tag]. split.
                + apply String.eqb_neq. intros E. apply T2. rewrite E. cbn. tauto.
                + destruct (fst (float_text x)); try reflexivity. congruence. }
            destruct Tx as [-> ->]. reflexivity.
        - assert (Nf : f <> LAnnotationTypes).
          { intros ->. cbn [lib_seg] in He. destruct D as (_ & _ & _ & _ & _ & A6 & _). rewrite A6 in He. destruct He. }
          apply (in_map fst) in He. rewrite lib_seg_keys in He. apply (lib_named_keys a f _ Fr) in He as [He _]. cbn in He. subst k. cbn in K. injection K as K.
          unfold text_key, is_annotation_key. rewrite <- K. destruct f; try discriminate Fr; try congruence; reflexivity. }
      clear -Z. induction l as [|p l IH]; [reflexivity|]. cbn [flat_map]. rewrite (Z p (or_introl eq_refl)). apply IH. intros q Hq. apply Z. right. exact Hq. }
    destruct D' as (_ & _ & _ & _ & _ & _ & _ & [kvs [A8 E8]] & _). rewrite E in A8. inversion A8; subst. rewrite E8. reflexivity.
  Qed.

  Lemma lib_exact t0 l0 a n : tame_floats -> lib_unmarshal (Map t0 l0) new_library = Ok a -> lib_marshal a = Ok n -> lib_unmarshal n new_library = Ok a -> settled_lib a.
  Proof.
    intros Tm R0 W R. pose proof (lib_annotations_lost t0 l0 a n Tm R0 W R) as Ha. pose proof (lib_reads_all _ _ R0) as D.
    pose proof (lib_tidy_read _ _ R0 Ha) as Ht. apply (lib_written_iff a n Ht) in W as [l [-> W]].
    pose proof (proj1 (lib_read_all_iff _ _ _) R) as [_ D'].
    pose (P := [LUsage; LUses; LSecuritySchemes; LTraits; LAnnotationTypes; LAnnotations; LResourceTypes]).
    assert (Eo : flat_map (lib_seg a) lib_order = flat_map (lib_seg a) P ++ lib_seg a LExtra ++ lib_seg a LTypes).
    { change lib_order with (P ++ [LExtra] ++ [LTypes]). rewrite !flat_map_app. cbn [flat_map]. rewrite !app_nil_r. reflexivity. }
    rewrite Eo in W. clear Eo. apply Forall2_app_inv_l in W as [l1 [r1 [W1 [W E1]]]]. apply Forall2_app_inv_l in W as [l2 [l4 [W2 [W4 E2]]]]. subst l r1.
    pose proof (lib_plain a P Ha ltac:(cbn; intuition discriminate) l1 W1) as Y1.
    pose proof (fun p => lib_seg_named a LTypes l4 p eq_refl W4) as Y4.
    assert (Nm : forall p f, lib_free f = false -> fst p = str_node (lib_key f) -> lib_extra_key p = false /\ (f <> LTypes -> lib_types_key p = false)).
    { clear. intros p f Hf E. unfold lib_extra_key, lib_types_key, text_key, is_annotation_key. rewrite E.
      destruct f; try discriminate Hf; (split; [reflexivity|]); intros N; try reflexivity; congruence. }
    destruct D' as (_ & _ & _ & _ & _ & _ & A7 & _ & [kvs [A9 E9]]).
    assert (X1 : filter lib_extra_key l1 = []).
    { apply filter_nothing. intros p Hp. destruct (Y1 p Hp) as [f [_ [Hf E]]]. exact (proj1 (Nm p f Hf E)). }
    assert (X4 : filter lib_extra_key l4 = []).
    { apply filter_nothing. intros p Hp. exact (proj1 (Nm p LTypes eq_refl (Y4 p Hp))). }
    rewrite !filter_app, X1, X4, !app_nil_r in A9. cbn [app] in A9.
    destruct (extras_exact lib_extra_key (ents (l_extra a)) l2 kvs W2 A9 (f_equal ents E9)) as [All Hk].
    assert (X2 : forall p, In p l2 -> lib_extra_key p = true) by (intros p Hp; rewrite <- All in Hp; apply filter_In in Hp; tauto).
    split; [exact Ha|]. split.
    - intros s d Hi. cbn [lib_seg] in W4. unfold if_seg in W4. destruct (nonempty (l_types a)) eqn:Ne; [|unfold nonempty in Ne; destruct (ents (l_types a)); [destruct Hi|discriminate Ne]].
      apply wrote_one in W4 as [nt [Wt ->]].
      assert (T1 : filter lib_types_key l1 = []).
      { apply filter_nothing. intros p Hp. destruct (Y1 p Hp) as [f [Hf [Fr E]]]. apply (Nm p f Fr E). intros ->. cbn in Hf. intuition discriminate. }
      assert (T2 : filter lib_types_key l2 = []).
      { apply filter_nothing. intros p Hp. apply X2 in Hp. unfold lib_extra_key in Hp. apply negb_true_iff in Hp. apply orb_false_iff in Hp as [Hp _]. apply orb_false_iff in Hp as [Hp _].
        unfold lib_types_key, text_key. destruct (String.eqb (value (fst p)) "types") eqn:Et; [apply String.eqb_eq in Et; rewrite Et in Hp; discriminate Hp|].
        destruct (String.eqb (value (fst p)) "schemas") eqn:Es; [apply String.eqb_eq in Es; rewrite Es in Hp; discriminate Hp|]. reflexivity. }
      assert (T4 : filter lib_types_key [(str_node "types", nt)] = [(str_node "types", nt)]) by reflexivity.
      unfold pairs_under in A7. rewrite !filter_app, T1, T2, T4 in A7. cbn [app map snd flat_map] in A7. rewrite app_nil_r in A7.
      destruct A7 as [kt [A7 E7]]. destruct D as (_ & _ & _ & _ & _ & _ & B7 & _).
      assert (O := filled_oord _ _ _ B7).
      assert (Nd : NoDup (map fst (ents (l_types a)))) by (destruct B7 as [kb [_ ->]]; apply mputs_nodup; constructor).
      apply filled_came in B7. rewrite Forall_forall in B7. destruct (B7 _ Hi) as [n0 Rn].
      assert (Em : exists lt, nt = Map TMap lt).
      { unfold types_to_yaml, map_to_yaml in Wt. rewrite O in Wt. apply bind_ok in Wt as [lt [_ Wt]]. injection Wt as <-. eauto. }
      destruct Em as [lt ->]. cbn [pairs_of] in A7.
      destruct (map_back to_yaml (fun n d => hat n = Ok d) (l_types a) TMap lt kt O Nd Wt A7 E7 s d Hi) as [n' [V1 V2]].
      exact (exact n0 d n' Rn V1 V2).
    - intros x v Hi. destruct (Hk _ _ Hi) as [p [K1 K2]]. cbn in K1. injection K1 as K1. rewrite K1. exact K2.
  Qed.

  Lemma lib_settled_back t0 l0 a : tame_floats -> lib_unmarshal (Map t0 l0) new_library = Ok a -> settled_lib a ->
    exists n, lib_marshal a = Ok n /\ lib_unmarshal n new_library = Ok a.
  Proof.
    intros Tm R0 [Ha [Hty Hx]]. destruct (lib_read_writes _ _ R0) as [n W]. exists n. split; [exact W|].
    assert (Hp : plain_keys (l_extra a)) by (intros x v _; apply Tm).
    pose proof (lib_reads_all _ _ R0) as D. assert (Hat := D). destruct Hat as (_ & _ & _ & _ & _ & Hat & _).
    apply (lib_written_iff a n (lib_tidy_read _ _ R0 Ha)) in W as [l [-> W]].
    destruct (lib_back (lib_bare a) (lib_bare_returns l0 a R0 D Hat Ha Hx Hp)) as [l1 [a0 [W0 [R1 S]]]].
    assert (D0 : lib_actual l1 a0) by (apply lib_reads_all; exact R1).
    assert (T0 : ents (l_types a0) = []).
    { pose proof (S LTypes) as St. cbn [lget same_lfield] in St. unfold same_map in St. cbn in St. inversion St. reflexivity. }
    pose proof (lib_bare_same l0 l1 a a0 D D0 Hat T0 Ha S) as E0. subst a0.
    rewrite lib_segs_order in W, W0. change (lib_seg (lib_bare a) LTypes) with (@nil (gkey * res node)) in W0. rewrite app_nil_r in W0.
    rewrite (lib_segs_front (lib_bare a) a) in W0 by (intros f Hf; apply lib_bare_seg; exact Hf).
    apply Forall2_app_inv_l in W as [l1' [lt [W1 [W2 El]]]].
    assert (l1' = l1) by (eapply wrote_same; eassumption). subst l1' l.
    unfold lib_unmarshal, map_fold. rewrite fold_res_app, R1. cbn [bind].
    destruct D as (_ & _ & _ & _ & _ & _ & A7 & _).
    assert (O := filled_oord _ _ _ A7).
    assert (Eb : l_set_types (l_types a) (lib_bare a) = a) by (destruct a; reflexivity).
    cbn [lib_seg] in W2. unfold if_seg in W2. destruct (nonempty (l_types a)) eqn:Ne.
    - apply wrote_one in W2 as [nt [Wt ->]]. cbn [fold_res]. cbv [lib_assign]. cbn -[lib_bare].
      assert (Rt : read_types (l_types (lib_bare a)) nt = Ok (l_types a)).
      { apply (map_stable hat to_yaml); [exact O| | |exact Wt].
        - destruct A7 as [kb [_ ->]]. apply mputs_nodup. constructor.
        - intros k v Hi. apply filled_came in A7. rewrite Forall_forall in A7. destruct (A7 _ Hi) as [nn Hn]. eapply stable; [exact Hn|]. exact (Hty k v Hi). }
      rewrite Rt. cbn [bind]. rewrite Eb. reflexivity.
    - apply wrote_nil in W2. subst lt. cbn [fold_res]. rewrite <- Eb at 2. f_equal.
      unfold nonempty in Ne. destruct (l_types a) as [[|e es] o]; [|discriminate Ne]. cbn in O. subst o. reflexivity.
  Qed.

  Lemma lib_comes_back n a : tame_floats -> lib_unmarshal n new_library = Ok a ->
    ((exists n', lib_marshal a = Ok n' /\ lib_unmarshal n' new_library = Ok a) <-> settled_lib a).
  Proof.
    intros Tm R. destruct n as [t v|t l|t l]; try discriminate R. split; [intros [n' [W R']]; exact (lib_exact t l a n' Tm R W R')|exact (lib_settled_back t l a Tm R)].
  Qed.
End ApiExact.
