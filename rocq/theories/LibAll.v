(** What reading a library does, for every document: the entries of `annotationTypes` join the annotations (C53). *)
From Coq Require Import SpecFloat Permutation.
From Verif Require Import Base Num OMap OMapSpec Keys Yaml Values Assign Formats Meta Out Xml Example DataType Marshal Doc Api Library
  AssignProofs TypeFacts Fields FieldProofs FacetSpec FacetProofs DocProofs OrderProofs PathProofs Lens Segs ExProofs WriteProofs ReadInv Same ExRound TypeSegs WriteSpec
  RoundSpec RoundProofs WasRead Writable Crash Parts ApiFields ApiSpec ApiProofs LibProofs ApiWrite ApiRoundSpec ApiRound ApiOrder.

(** The keys that start with a parenthesis, and the entries of `annotationTypes`, in the order of the document. *)
Definition lib_ann_pairs (l : list (node * node)) : list (node * node) :=
  flat_map (fun p => if text_key "annotationTypes" p then pairs_of (snd p) else if is_annotation_key (fst p) then [p] else []) l.

Definition lib_actual {F : FloatIO} (l : list (node * node)) (a : library) : Prop :=
  said_by (text_key "usage") l (fun n o => exists s, denotes_string n s /\ o = Some s) None (l_usage a) /\
  filled denotes_string (pairs_under (text_key "uses") l) (l_uses a) /\
  filled as_is (pairs_under (text_key "securitySchemes") l) (l_securitySchemes a) /\
  filled as_is (pairs_under (text_key "traits") l) (l_traits a) /\
  filled as_is (pairs_under (text_key "resourceTypes") l) (l_resourceTypes a) /\
  l_annotationTypes a = mkMap [] false /\
  filled (fun n d => hat n = Ok d) (pairs_under lib_types_key l) (l_types a) /\
  filled (fun n v => read_annotation n = Ok v) (lib_ann_pairs l) (l_annotations a) /\
  (exists kvs, Forall2 (fun p kv => to_scalar (fst p) = Ok (fst kv) /\ snd kv = GNode (snd p)) (filter lib_extra_key l) kvs /\
               l_extra a = kputs kvs (mkMap [] false)).

Definition lib_allows {F : FloatIO} (p : node * node) : Prop :=
  ~ denotes_string (fst p) "" /\
  (text_key "usage" p = true -> exists s, denotes_string (snd p) s) /\
  (text_key "uses" p = true -> mapping_of (fun n => exists s, denotes_string n s) (snd p)) /\
  (existsb (fun s => text_key s p) ["securitySchemes"; "traits"; "resourceTypes"] = true -> mapping_of (fun _ => True) (snd p)) /\
  (text_key "annotationTypes" p = true -> mapping_of (fun n => exists a, read_annotation n = Ok a) (snd p)) /\
  (lib_types_key p = true -> mapping_of (fun n => exists d, hat n = Ok d) (snd p)) /\
  (is_annotation_key (fst p) = true -> exists a, read_annotation (snd p) = Ok a) /\
  (lib_extra_key p = true -> exists k, to_scalar (fst p) = Ok k).

Section LibAll.
  Context {F : FloatIO}.

  Lemma annotation_key_string n : is_annotation_key n = true -> denotes_string n (value n).
  Proof. unfold is_annotation_key, denotes_string, is_string. intros H. apply andb_true_iff in H as [H _]. destruct (node_tag n); try discriminate H. auto. Qed.

  Lemma lib_anns_filled l : forall m v, fold_res (lib_step LAnnotations) m (filter (lib_mine LAnnotations) l) = Ok v ->
    exists kvs, Forall2 (fun e kv => denotes_string (fst e) (fst kv) /\ read_annotation (snd e) = Ok (snd kv)) (lib_ann_pairs l) kvs /\ v = mputs kvs m.
  Proof.
    induction l as [|p l IH]; intros m v H; cbn [filter] in H.
    { injection H as <-. exists []. split; [constructor|reflexivity]. }
    cbn [lib_ann_pairs flat_map]. destruct (text_key "annotationTypes" p) eqn:Et.
    - assert (M : lib_mine LAnnotations p = true).
      { unfold lib_mine, mine, lib_target. unfold text_key in Et. apply String.eqb_eq in Et. rewrite Et. reflexivity. }
      rewrite M in H. cbn [fold_res] in H. apply bind_ok in H as [m1 [H1 H]].
      assert (E1 : lib_step LAnnotations m p = read_amap read_annotation m (snd p)) by (cbn [lib_step]; unfold text_key in Et; rewrite Et; reflexivity).
      rewrite E1 in H1. apply read_amap_map in H1 as [t [l1 [k1 [E [A ->]]]]]. apply IH in H as [k2 [B ->]].
      exists (k1 ++ k2). split; [|symmetry; apply mputs_app]. rewrite E. apply Forall2_app; [exact A|exact B].
    - rewrite (lib_mine_annotations p Et) in H. destruct (is_annotation_key (fst p)) eqn:Ea; [|exact (IH m v H)].
      cbn [fold_res] in H. apply bind_ok in H as [m1 [H1 H]]. cbn [lib_step] in H1. unfold text_key in Et. rewrite Et in H1.
      apply bind_ok in H1 as [x [H1 H2]]. injection H2 as <-. apply IH in H as [k2 [B ->]].
      exists ((value (fst p), x) :: k2). split; [|reflexivity]. constructor; [|exact B]. split; [exact (annotation_key_string _ Ea)|exact H1].
  Qed.

  Lemma lib_reads_all l a : fold_res lib_assign new_library l = Ok a -> lib_actual l a.
  Proof.
    intros H. pose proof (lib_fold l new_library a H) as A. unfold lib_actual, pairs_under.
    assert (N : forall f s, In (s, f) lib_keys -> f <> LTypes -> f <> LAnnotations ->
      fold_res (lib_step f) (lget f new_library) (filter (text_key s) l) = Ok (lget f a)).
    { intros f s H1 H2 H3. rewrite <- (A f). f_equal. apply filter_eq. intros x. symmetry. apply lib_mine_named; assumption. }
    split.
    { refine (fold_said _ (fun n o => exists s, denotes_string n s /\ o = Some s) _ _ l _ _ (N LUsage "usage" _ _ _)); [|cbn; tauto|discriminate|discriminate].
      intros old e v. apply string_ptr_step. }
    split. { apply filled_strings. apply (fold_amap to_str _ _ _ (N LUses "uses" ltac:(cbn; tauto) ltac:(discriminate) ltac:(discriminate))). }
    split. { apply filled_as_is. apply (fold_amap as_gnode _ _ _ (N LSecuritySchemes "securitySchemes" ltac:(cbn; tauto) ltac:(discriminate) ltac:(discriminate))). }
    split. { apply filled_as_is. apply (fold_amap as_gnode _ _ _ (N LTraits "traits" ltac:(cbn; tauto) ltac:(discriminate) ltac:(discriminate))). }
    split. { apply filled_as_is. apply (fold_amap as_gnode _ _ _ (N LResourceTypes "resourceTypes" ltac:(cbn; tauto) ltac:(discriminate) ltac:(discriminate))). }
    split. { exact (annotation_types_unread l new_library a H). }
    split. { rewrite (filter_eq _ _ l (fun x => eq_sym (lib_mine_types x))). exact (fold_amap hat _ _ _ (A LTypes)). }
    split. { exact (lib_anns_filled l _ _ (A LAnnotations)). }
    rewrite (filter_eq _ _ l (fun x => eq_sym (lib_mine_extra x))). exact (fold_extra_entries _ _ _ (A LExtra)).
  Qed.

  Lemma lib_actual_fun l a b : lib_actual l a -> lib_actual l b -> a = b.
  Proof.
    intros (A1 & A2 & A3 & A4 & A5 & A6 & A7 & A8 & A9) (B1 & B2 & B3 & B4 & B5 & B6 & B7 & B8 & B9).
    assert (D1 : forall n a b, denotes_string n a -> denotes_string n b -> a = b) by (intros; eapply denotes_string_fun; eassumption).
    assert (D2 : forall n (a b : option string), (exists s, denotes_string n s /\ a = Some s) -> (exists s, denotes_string n s /\ b = Some s) -> a = b).
    { intros n x y [s [Hs ->]] [s' [Hs' ->]]. f_equal. eapply D1; eassumption. }
    assert (D4 : forall n a b, as_is n a -> as_is n b -> a = b) by (unfold as_is; congruence).
    apply lib_ext. intros f. destruct f; cbn [lget].
    all: try (eapply said_by_fun; [|eassumption|eassumption]; assumption).
    all: try (eapply filled_fun; [|eassumption|eassumption]; assumption).
    - congruence.
    - eapply filled_fun; [|eassumption|eassumption]. cbv beta. congruence.
    - eapply extras_fun; eassumption.
    - eapply filled_fun; [|eassumption|eassumption]. cbv beta. congruence.
  Qed.

  Lemma lib_allows_wants p : lib_allows p <-> match lib_target p with Some f => lib_wants f p | None => False end.
  Proof.
    destruct (text_key "annotationTypes" p) eqn:Et.
    - assert (Ev := Et). unfold text_key in Ev. apply String.eqb_eq in Ev. unfold lib_target. rewrite Ev. cbn [look lib_keys String.eqb Ascii.eqb Bool.eqb].
      change (lib_allows p <-> lib_wants LAnnotations p). cbn [lib_wants]. rewrite Et. unfold lib_allows.
      unfold lib_types_key, lib_extra_key, text_key, is_annotation_key, denotes_string. rewrite Ev. cbn. destruct (is_string (fst p)); cbn; intuition (try discriminate; try congruence).
    - rewrite <- (lib_acceptable_wants p Et). unfold lib_allows, lib_acceptable. cbn [existsb]. rewrite Et. rewrite !orb_false_r. cbn [orb].
      intuition discriminate.
  Qed.

  Lemma lib_read_all_iff t l a : lib_unmarshal (Map t l) new_library = Ok a <-> Forall lib_allows l /\ lib_actual l a.
  Proof.
    assert (G : (exists a', fold_res lib_assign new_library l = Ok a') <-> Forall lib_allows l).
    { rewrite (parts_accept lty lget lset lib_target lib_step lib_assign lib_assign_step
        (fun p => match lib_target p with Some f => lib_wants f p | None => False end)).
      - rewrite !Forall_forall. split; intros H x Hx; specialize (H x Hx); apply lib_allows_wants; exact H.
      - intros e f v T. rewrite T. apply lib_step_wants.
      - intros e T. rewrite T. tauto. }
    unfold lib_unmarshal, map_fold. split.
    - intros H. split; [apply G; eauto|apply lib_reads_all; exact H].
    - intros [H1 H2]. apply G in H1 as [a' H1]. rewrite H1. f_equal. eapply lib_actual_fun; [apply lib_reads_all; exact H1|exact H2].
  Qed.
End LibAll.
