(** Reading again what was read and written, for libraries (C54). *)
From Coq Require Import SpecFloat Permutation.
From Verif Require Import Base Num OMap OMapSpec Keys Yaml Values Assign Formats Meta Out Xml Example DataType Marshal Doc Api Library
  AssignProofs TypeFacts Fields FieldProofs FacetSpec FacetProofs DocProofs OrderProofs PathProofs Lens Segs ExProofs WriteProofs ReadInv Same ExRound TypeSegs WriteSpec
  RoundSpec RoundProofs WasRead Writable Stable Crash Parts ApiFields ApiSpec ApiProofs LibProofs ApiWrite ApiRoundSpec ApiRound LibRound ApiOrder ApiReadRound.

Section LibReadRound.
  Context {F : FloatIO}.

  Lemma lib_read_returns l a : lib_document l a -> fold_res lib_assign new_library l = Ok a -> Forall (fun p => is_string (fst p) = true) l ->
    Forall (fun p => is_annotation_key (fst p) = false) l -> Forall (fun p => text_key "annotationTypes" p = false) l ->
    Forall (fun e => settled (snd e)) (ents (l_types a)) -> lib_returns a.
  Proof.
    intros H Hf Hs Ha Hn Ht. pose proof (lib_extras_read l a Hf) as [X1 X2].
    destruct H as (A1 & A2 & A3 & A4 & A5 & A6 & A7 & A8 & A9).
    assert (As : forall n v, as_is n v -> has_node v) by (intros n v ->; exists n; reflexivity).
    assert (E0 : ents (l_annotations a) = []).
    { destruct A8 as [kvs [B E]]. assert (E0 : filter (fun p => is_annotation_key (fst p)) l = []).
      { clear - Ha. induction Ha as [|p l H _ IH]; [reflexivity|]. cbn [filter]. rewrite H. exact IH. }
      rewrite E0 in B. inversion B; subst. rewrite E. reflexivity. }
    assert (XE : Forall (fun e => exists s, fst e = KStr s /\ has_node (snd e)) (ents (l_extra a))).
    { destruct A9 as [kvs [B E]]. rewrite E. apply Forall_forall. intros e He. apply kputs_in in He as [He|[]].
      destruct (Forall2_in_r _ _ _ _ B He) as [p [Hp [K1 K2]]]. apply filter_In in Hp as [Hp Hx]. rewrite Forall_forall in Hs. specialize (Hs p Hp).
      exists (value (fst p)). split; [|rewrite K2; eexists; reflexivity].
      unfold is_string in Hs. destruct p as [[t v|t v|t v] x]; cbn in *; destruct t; try discriminate Hs; try discriminate K1.
      all: injection K1 as <-; reflexivity. }
    split; [|split; [exact (filled_returns _ _ _ _ A2 (fun _ _ _ => I))|]].
    { split; [rewrite E0; constructor|]. split; [exact X1|]. split.
      - intros f Hi Hk. rewrite E0. split; [intros []|]. intros Hc. apply X2 in Hc as [_ [_ Hc]]. apply Hc.
        destruct f; cbn; try tauto; exfalso; apply Hk; reflexivity.
      - rewrite E0. intros s []. }
    do 3 (split; [eapply filled_returns; [eassumption|exact As]|]).
    split.
    { destruct A6 as [kvs [B E]]. assert (E1 : pairs_under (text_key "annotationTypes") l = []).
      { unfold pairs_under. replace (filter (text_key "annotationTypes") l) with (@nil (node * node)); [reflexivity|].
        clear - Hn. induction Hn as [|p l H _ IH]; [reflexivity|]. cbn [filter]. rewrite H. exact IH. }
      rewrite E1 in B. inversion B; subst. rewrite E. reflexivity. }
    split.
    { apply (read_section_returns _ _ _ _ A7). apply filled_came in A7. rewrite Forall_forall in *. intros e He. destruct (A7 e He) as [n Hn'].
      eapply settled_returns; [exact (Ht e He)|exact Hn']. }
    split; [rewrite E0; constructor|].
    rewrite Forall_forall in XE. split; apply Forall_forall; intros e He; destruct (XE e He) as [s [K N]].
    - split; [|split; [exact N|]].
      + rewrite K. exists (str_node s). split; reflexivity.
      + intros s' Es. rewrite K in Es. injection Es as <-. assert (Hi : In (KStr s) (map fst (ents (l_extra a)))) by (rewrite <- K; apply in_map; exact He).
        apply X2 in Hi as [Y1 [Y2 _]]. intros [Q|Q]; congruence.
    - intros n Hk. rewrite K in Hk. injection Hk as <-. cbn [value str_node].
      assert (Hi : In (KStr s) (map fst (ents (l_extra a)))) by (rewrite <- K; apply in_map; exact He).
      apply X2 in Hi as [_ [_ Y]]. exact Y.
  Qed.

  Lemma lib_read_round t l a : lib_unmarshal (Map t l) new_library = Ok a ->
    Forall (fun p => is_string (fst p) = true /\ is_annotation_key (fst p) = false /\ text_key "annotationTypes" p = false) l ->
    Forall (fun e => settled (snd e)) (ents (l_types a)) ->
    exists n a', lib_marshal a = Ok n /\ lib_unmarshal n new_library = Ok a' /\ same_library a a'.
  Proof.
    intros H Hl Ht. assert (Hn : Forall (fun p => text_key "annotationTypes" p = false) l) by (eapply Forall_impl; [|exact Hl]; cbn; tauto).
    apply lib_round_trip. assert (H' := H). apply (lib_read_iff t l a Hn) in H as [_ H]. apply (lib_read_returns l a H); try assumption.
    all: eapply Forall_impl; [|exact Hl]; cbn; tauto.
  Qed.
End LibReadRound.
