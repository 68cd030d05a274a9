(** Repeated keys (C61) and the order of keys (C62) in libraries. *)
From Coq Require Import SpecFloat Permutation.
From Verif Require Import Base Num OMap OMapSpec Keys Yaml Values Assign Formats Meta Out Xml Example DataType Marshal Doc Api Library
  AssignProofs TypeFacts Fields FieldProofs FacetSpec FacetProofs DocProofs OrderProofs PathProofs Lens Segs ExProofs WriteProofs ReadInv Same ExRound TypeSegs WriteSpec
  RoundSpec RoundProofs WasRead Writable Crash Parts ApiFields ApiSpec ApiProofs LibProofs ApiWrite ApiRoundSpec ApiRound ApiOrder LibAll.

(** The sections whose entries add up. *)
Definition lib_adding : list string := ["uses"; "securitySchemes"; "traits"; "resourceTypes"; "annotationTypes"; "types"; "schemas"].

(** Two keys of a library are different: by their text (known keys are recognised by it), as Go values, and not one `types` and the other `schemas`. *)
Definition lib_differ {F : FloatIO} (p q : node * node) : Prop :=
  value (fst p) <> value (fst q) /\
  (forall k k', to_scalar (fst p) = Ok k -> to_scalar (fst q) = Ok k' -> gkey_eqb k k' = false) /\
  ~ (lib_types_key p = true /\ lib_types_key q = true).

Definition same_library_but_order (a a' : library) : Prop :=
  l_usage a' = l_usage a /\ l_uses a' = l_uses a /\ l_securitySchemes a' = l_securitySchemes a /\ l_traits a' = l_traits a /\
  l_resourceTypes a' = l_resourceTypes a /\ l_annotationTypes a' = l_annotationTypes a /\ l_types a' = l_types a /\
  same_entries (l_annotations a) (l_annotations a') /\ same_entries (l_extra a) (l_extra a').

Section LibOrder.
  Context {F : FloatIO}.

  Lemma ann_pairs_app a b : lib_ann_pairs (a ++ b) = lib_ann_pairs a ++ lib_ann_pairs b.
  Proof. unfold lib_ann_pairs. apply flat_map_app. Qed.

  Lemma lib_repeated t pre key v1 mid v2 post a : findable key -> ~ In (value key) lib_adding ->
    lib_unmarshal (Map t (pre ++ (key, v1) :: mid ++ (key, v2) :: post)) new_library = Ok a ->
    lib_unmarshal (Map t (pre ++ mid ++ (key, v2) :: post)) new_library = Ok a.
  Proof.
    intros Hfind Hadd H.
    assert (T : forall v, text_key "annotationTypes" (key, v) = false).
    { intros v. unfold text_key. cbn [fst]. apply String.eqb_neq. intros E. apply Hadd. rewrite E. cbn. tauto. }
    apply lib_read_all_iff in H as [Hacc H]. apply lib_read_all_iff. split.
    { apply Forall_app in Hacc as [H1 H2]. inversion H2; subst. apply Forall_app. split; assumption. }
    set (big := pre ++ (key, v1) :: mid ++ (key, v2) :: post) in *. set (small := pre ++ mid ++ (key, v2) :: post).
    destruct H as (A1 & A2 & A3 & A4 & A5 & A6 & A7 & A8 & A9).
    assert (K : forall s, In s lib_adding -> pairs_under (text_key s) big = pairs_under (text_key s) small).
    { intros s Hs. unfold pairs_under. f_equal. f_equal. apply filter_skip. unfold text_key. cbn [fst].
      apply String.eqb_neq. intros E. apply Hadd. rewrite E. exact Hs. }
    assert (KT : pairs_under lib_types_key big = pairs_under lib_types_key small).
    { unfold pairs_under. f_equal. f_equal. apply filter_skip. unfold lib_types_key, text_key. cbn [fst].
      apply orb_false_iff. split; apply String.eqb_neq; intros E; apply Hadd; rewrite E; cbn; tauto. }
    unfold lib_actual. rewrite <- !K by (cbn; tauto). rewrite <- KT.
    split. { revert A1. unfold said_by, big, small. rewrite last_of_skip; [exact (fun H => H)|exact (fun H => H)]. }
    do 6 (split; [assumption|]). split.
    - destruct A8 as [kvs [B E]]. assert (P : forall v r, lib_ann_pairs ((key, v) :: r) = (if is_annotation_key key then [(key, v)] else []) ++ lib_ann_pairs r).
      { intros v r. cbn [lib_ann_pairs flat_map]. rewrite T. reflexivity. }
      unfold big in B. unfold small, filled. rewrite !ann_pairs_app, !P, !ann_pairs_app, !P in *. destruct (is_annotation_key key).
      + cbn [app] in *. apply split_two in B as [l1 [x [l2 [y [l3 [-> [P1 [P2 B]]]]]]]]. eexists. split; [exact B|]. rewrite E. apply mputs_skip.
        destruct P1 as [P1 _], P2 as [P2 _]. exact (denotes_string_fun _ _ _ P1 P2).
      + exists kvs. split; [exact B|exact E].
    - destruct A9 as [kvs [B E]]. destruct (lib_extra_key (key, v1)) eqn:Ek.
      + destruct (filter_two lib_extra_key pre (key, v1) mid (key, v2) post Ek Ek) as [F1 F2].
        unfold big in B. rewrite F1 in B. unfold small. rewrite F2.
        apply split_two in B as [l1 [x [l2 [y [l3 [-> [P1 [P2 B]]]]]]]]. eexists. split; [exact B|]. rewrite E.
        destruct P1 as [P1 _], P2 as [P2 _]. cbn [fst] in P1, P2. apply kputs_skip; [congruence|].
        apply findable_refl; [apply Hfind; exact P2|eapply to_scalar_hashable; exact P2].
      + exists kvs. split; [|exact E]. unfold small. rewrite <- (filter_skip _ pre (key, v1)) by exact Ek. exact B.
  Qed.

  Lemma Permutation_flat_map {A B} (f : A -> list B) l l' : Permutation l l' -> Permutation (flat_map f l) (flat_map f l').
  Proof.
    intros H. induction H as [|a l l' H IH|a b l|l1 l2 l3 H1 IH1 H2 IH2]; cbn [flat_map].
    - constructor.
    - apply Permutation_app_head. exact IH.
    - rewrite !app_assoc. apply Permutation_app_tail, Permutation_app_comm.
    - eapply perm_trans; eassumption.
  Qed.

  Lemma lib_key_order t l l' a : Permutation l l' -> ForallOrdPairs lib_differ l -> NoDup (map text (lib_ann_pairs l)) ->
    lib_unmarshal (Map t l) new_library = Ok a ->
    exists a', lib_unmarshal (Map t l') new_library = Ok a' /\ same_library_but_order a a'.
  Proof.
    intros P N Hn H. apply lib_read_all_iff in H as [Hacc H].
    destruct H as (A1 & A2 & A3 & A4 & A5 & A6 & A7 & A8 & A9).
    assert (K : forall s, filter (text_key s) l = filter (text_key s) l').
    { intros s. apply Permutation_single; [|apply Permutation_filter; exact P]. apply (pairs_single lib_differ _ _ N).
      unfold text_key. intros x y Hx Hy [D _]. apply String.eqb_eq in Hx, Hy. congruence. }
    assert (KT : filter lib_types_key l = filter lib_types_key l').
    { apply Permutation_single; [|apply Permutation_filter; exact P]. apply (pairs_single lib_differ _ _ N). intros x y Hx Hy [_ [_ D]]. auto. }
    destruct A8 as [ka [B8 E8]], A9 as [ke [B9 E9]].
    destruct (Permutation_Forall2 (Permutation_flat_map _ _ _ P : Permutation (lib_ann_pairs l) (lib_ann_pairs l')) B8) as [ka' [Pka B8']].
    destruct (Permutation_Forall2 (Permutation_filter lib_extra_key _ _ P) B9) as [ke' [Pke B9']].
    assert (Na : NoDup (map fst ka)).
    { replace (map fst ka) with (map text (lib_ann_pairs l)); [exact Hn|]. clear - B8. induction B8 as [|x y r rs [[_ H] _] _ IH]; [reflexivity|].
      cbn [map]. rewrite IH. f_equal. exact H. }
    assert (Ne : apart (map fst ke) = true).
    { apply (pairs_filter lib_differ lib_extra_key) in N. clear - B9 N. induction B9 as [|p kv r rs [H1 H2] H3 IH]; [reflexivity|].
      inversion N as [|x y N1 N2]; subst. cbn [map apart]. apply andb_true_iff. split; [|exact (IH N2)].
      apply forallb_forall. intros k Hk. apply in_map_iff in Hk as [kv' [<- Hk]]. destruct (Forall2_in_r _ _ _ _ H3 Hk) as [q [Hq [E _]]].
      rewrite Forall_forall in N1. destruct (N1 q Hq) as [_ [D _]]. rewrite (D _ _ H1 E). reflexivity. }
    set (a' := mkLib (mputs ka' (mkMap [] false)) (l_annotationTypes a) (kputs ke' (mkMap [] false)) (l_uses a) (l_resourceTypes a) (l_securitySchemes a)
       (l_traits a) (l_types a) (l_usage a)).
    exists a'. split.
    - apply lib_read_all_iff. split; [apply (Permutation_Forall P Hacc)|].
      unfold lib_actual, pairs_under, said_by in *. rewrite (last_of_filter (text_key "usage")), <- !K, <- KT, <- (last_of_filter (text_key "usage")).
      unfold a'. cbn [l_usage l_uses l_securitySchemes l_traits l_resourceTypes l_annotationTypes l_types l_annotations l_extra].
      do 7 (split; [assumption|]). split; [exists ka'; auto|exists ke'; auto].
    - unfold same_library_but_order, same_entries, a'.
      cbn [l_usage l_uses l_securitySchemes l_traits l_resourceTypes l_annotationTypes l_types l_annotations l_extra].
      rewrite E8, E9. do 7 (split; [reflexivity|]).
      rewrite !mputs_fresh, !kputs_fresh; cbn [app ents oord]; try assumption.
      + repeat split; assumption.
      + eapply apart_perm; [apply Permutation_map; exact Pke|exact Ne].
      + eapply Permutation_NoDup; [apply Permutation_map; exact Pka|exact Na].
  Qed.
End LibOrder.
