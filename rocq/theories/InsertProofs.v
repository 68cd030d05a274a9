(** C25, C36: adding a facet to a definition. *)
From Coq Require Import SpecFloat Permutation.
From Verif Require Import Base Num OMap OMapSpec Keys Yaml Values Assign Formats Meta Out Xml Example DataType Marshal
  AssignProofs TypeFacts Fields FieldProofs FacetSpec FacetProofs DocProofs TypeWrite OrderProofs PathProofs Lens Segs ExProofs.

Lemma facet_not_type f s : facet_key f = Some s -> s <> "type" /\ s <> "schema".
Proof. intros H. destruct f; cbn in H; try discriminate; injection H as <-; split; discriminate. Qed.

Lemma insert_facet {F : FloatIO} t pre key val post d f v : t <> TStr ->
  hat (Map t (pre ++ post)) = Ok d ->
  In f (facets_of (d_kind d)) -> facet_key f = Some (value key) -> ~ mentions (value key) (pre ++ post) ->
  (f <> FItems /\ f <> FProps) \/ ~ no_type_key (pre ++ post) ->
  declared reads (d_kind d) f val (default_value (d_kind d) f) v ->
  hat (Map t (pre ++ (key, val) :: post)) = Ok (setf f v d).
Proof.
  intros Ht H Hi Hk Hm Hshape Hv. destruct (hat_start t _ d Ht H) as [sc [Hsift [Hf [Hs Hd]]]].
  set (d0 := set_schema sc (new_type (d_kind d))) in *.
  assert (Hi0 : In f (facets_of (d_kind d0))) by (rewrite Hd; exact Hi).
  assert (Ho : getf f d0 = Some (default_value (d_kind d) f)) by (apply get_new; exact Hi).
  assert (Tk : target d0 key = Some f) by (apply target_facet; assumption).
  assert (Hnone : filter (aims d0 f) (pre ++ post) = []).
  { apply filter_none. intros e He. rewrite (aims_facet d0 f _ e Hs Hi0 Hk). apply String.eqb_neq. intros E.
    apply Hm. exists e. auto. }
  assert (Hstep : step hat (d_kind d0) f key val (default_value (d_kind d) f) = Ok v).
  { apply (step_declared hat d0 f key val _ v Hs Hi0 Ho). rewrite Hd. exact Hv. }
  assert (Hfor : forall g, g <> f -> filter (aims d0 g) (pre ++ (key, val) :: post) = filter (aims d0 g) (pre ++ post)).
  { intros g Hg. rewrite !filter_app. cbn [filter]. unfold aims at 2. cbn [fst]. rewrite Tk, field_eqb_neq by exact Hg. reflexivity. }
  assert (Hmine : filter (aims d0 f) (pre ++ (key, val) :: post) = [(key, val)]).
  { rewrite filter_app in Hnone. apply app_eq_nil in Hnone as [N1 N2]. rewrite filter_app. cbn [filter].
    rewrite N1, N2. unfold aims. cbn [fst]. rewrite Tk, field_eqb_refl. reflexivity. }
  assert (Hex : exists d', fold_res (type_assign hat) d0 (pre ++ (key, val) :: post) = Ok d').
  { apply fields_fold.
    - intros e He. apply in_app_or in He as [He|[<-|He]].
      + eapply fold_targets; [exact Hf|apply in_or_app; auto].
      + cbn [fst]. congruence.
      + eapply fold_targets; [exact Hf|apply in_or_app; auto].
    - intros g old Hg. destruct (field_dec g f) as [->|N].
      + rewrite Hmine. rewrite Ho in Hg. injection Hg as <-. cbn. unfold stepper. cbn [fst snd]. rewrite Hstep. cbn. eauto.
      + rewrite (Hfor g N). destruct (fold_fields _ _ _ _ Hf g old Hg) as [w [_ Hw]]. eauto. }
  destruct Hex as [d' Hd']. apply hat_map; [exact Ht|]. exists d0. split.
  - rewrite <- Hsift, !sift_by_filter.
    destruct (facet_not_type f _ Hk) as [N1 N2].
    assert (Hty : is_type_key key = false).
    { destruct (is_type_key key) eqn:E; [|reflexivity]. apply is_type_key_iff in E as [E|E]; congruence. }
    assert (Ef : filter (fun e => is_type_key (fst e)) (pre ++ (key, val) :: post) = filter (fun e => is_type_key (fst e)) (pre ++ post)).
    { rewrite !filter_app. cbn [filter fst]. rewrite Hty. reflexivity. }
    rewrite Ef. destruct (filter (fun e => is_type_key (fst e)) (pre ++ post)) as [|[k0 v0] r] eqn:E0; [|reflexivity].
    destruct Hshape as [[P1 P2]|P].
    + assert (Hh : forall s, s <> value key -> has_key s (pre ++ (key, val) :: post) = has_key s (pre ++ post)).
      { intros s Ns. unfold has_key. rewrite !existsb_app. cbn [existsb fst]. rewrite (proj2 (String.eqb_neq (value key) s)) by congruence. reflexivity. }
      rewrite !Hh; [reflexivity| |].
      * intros E. rewrite <- E in Hk. destruct f; try discriminate. congruence.
      * intros E. rewrite <- E in Hk. destruct f; try discriminate. congruence.
    + exfalso. apply P. apply no_type_key_iff. unfold has_type_key. apply not_true_iff_false. intros E.
      apply existsb_exists in E as [e [He Ee]].
      assert (In e (filter (fun e => is_type_key (fst e)) (pre ++ post))) by (apply filter_In; auto). rewrite E0 in H0. destruct H0.
  - rewrite Hd'. f_equal. pose proof (fold_kind _ _ _ _ Hf) as [K1 S1]. pose proof (fold_kind _ _ _ _ Hd') as [K2 S2].
    destruct (fold_fields _ _ _ _ Hf f _ Ho) as [vf [Gf Ff]]. rewrite Hnone in Ff. cbn in Ff. injection Ff as <-.
    assert (Hfit : fits f v d).
    { eexists. split; [exact Gf|]. eapply step_sort; [exact Ho|exact Hstep]. }
    apply field_ext; [rewrite d_kind_setf; congruence|]. intros g. destruct (field_dec g f) as [->|N].
    + rewrite (getf_setf_same f v d Hfit). destruct (fold_fields _ _ _ _ Hd' f _ Ho) as [w [Gw Fw]].
      rewrite Hmine in Fw. cbn in Fw. unfold stepper in Fw. cbn [fst snd] in Fw. rewrite Hstep in Fw. cbn in Fw. congruence.
    + rewrite getf_setf_other by congruence. destruct (getf g d0) as [old|] eqn:Eo.
      * destruct (fold_fields _ _ _ _ Hf g old Eo) as [w [Gw Fw]].
        destruct (fold_fields _ _ _ _ Hd' g old Eo) as [w' [Gw' Fw']].
        rewrite (Hfor g N) in Fw'. congruence.
      * rewrite (getf_shape g d0 d), (getf_shape g d0 d'); try assumption; try reflexivity; rewrite same_shape_sym; assumption.
Qed.

(** The example facet. *)
Lemma example_accepted {F : FloatIO} t pre key val post d v : t <> TStr -> hat (Map t (pre ++ post)) = Ok d ->
  value key = "example" -> ~ mentions "example" (pre ++ post) ->
  d_kind d <> TyAny -> is_map val = false -> example_value (d_kind d) val v ->
  exists e, hat (Map t (pre ++ (key, val) :: post)) = Ok (setf FExample (VEx (Some e)) d) /\ ex_value e = Some v /\
            getf FExample (setf FExample (VEx (Some e)) d) = Some (VEx (Some e)).
Proof.
  intros Ht H Hk Hm Hany Hval Hv.
  pose (e := mkEx None None (mkMap [] false) (Some v) true (mkMap [] false)). exists e.
  assert (Hr : read_ex (d_kind d) val = Ok e) by (apply ex_direct; [exact Hval|]; exists v; auto).
  assert (Hi : In FExample (facets_of (d_kind d))).
  { destruct (d_kind d); try (cbn; intuition congruence); destruct Hv. }
  split; [|split; [reflexivity|]].
  - apply insert_facet; try assumption.
    + rewrite Hk. reflexivity.
    + rewrite Hk. exact Hm.
    + left; split; discriminate.
    + cbn. split; [exact Hany|]. exists e. auto.
  - apply getf_setf_same. destruct (facet_has d FExample (hat_shaped _ _ H) Hi) as [old Ho].
    exists old. split; [exact Ho|]. destruct d as [b|b x fs c s]; [discriminate|]. cbn in Ho. injection Ho as <-. reflexivity.
Qed.

Lemma any_example_rejected {F : FloatIO} t l d : t <> TStr -> mentions "example" l ->
  hat (Map t l) = Ok d -> d_kind d <> TyAny.
Proof.
  intros Ht [e [He Hk]] H E. destruct (hat_start t l d Ht H) as [sc [_ [Hf [Hs Hd]]]].
  assert (Hi : In FExample (facets_of (d_kind (set_schema sc (new_type (d_kind d)))))) by (rewrite Hd, E; simpl; auto 10).
  destruct (fold_fields _ _ _ _ Hf FExample (VEx None)) as [v [_ Hv]].
  { rewrite E. reflexivity. }
  rewrite (filter_ext _ _ (fun e => aims_facet _ FExample "example" e Hs Hi eq_refl)) in Hv.
  destruct (filter (fun e => String.eqb (value (fst e)) "example") l) as [|e0 r] eqn:Ef.
  - assert (Hin : In e (filter (fun e => String.eqb (value (fst e)) "example") l)).
    { apply filter_In. split; [exact He|]. apply String.eqb_eq. exact Hk. }
    rewrite Ef in Hin. destruct Hin.
  - cbn in Hv. apply bind_ok in Hv as [w [Hw _]]. unfold stepper in Hw. rewrite Hd, E in Hw. discriminate.
Qed.
