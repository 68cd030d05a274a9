(** A program that never passes nil never leaves a nil in what it builds (C64). *)
From Coq Require Import SpecFloat Relations Lia.
From Verif Require Import Base Num OMap OMapSpec Keys Yaml Values Assign Formats Meta Out Xml Example DataType Marshal Doc Api Library Setters Heap
  AssignProofs TypeFacts Fields FieldProofs FacetSpec FacetProofs DocProofs TypeWrite OrderProofs PathProofs HeapSpec HeapProofs HeapEdit.

Lemma set_nth_length {A} i (a : A) l : List.length (set_nth i a l) = List.length l.
Proof. revert i. induction l as [|b l IH]; intros [|i]; cbn; auto. Qed.

(** By field: what a definition, a map of types and a map of facets hold. *)
Definition type_fits (w : world) (t : htype) : Prop :=
  match t with
  | HBase _ => True
  | HExt _ _ f _ s => (f < List.length (w_facets w))%nat /\
    match s with
    | HArray _ _ _ (Some i) => (i < List.length (w_types w))%nat
    | HObject p _ _ _ _ _ => (p < List.length (w_maps w))%nat
    | _ => True
    end
  end.

Definition fits (w : world) : Prop :=
  Forall (type_fits w) (w_types w) /\
  Forall (fun mm => Forall (fun e => (snd e < List.length (w_types w))%nat) (ents mm)) (w_maps w) /\
  Forall (fun fm => Forall (fun e => (snd e < List.length (w_maps w))%nat) (ents fm)) (w_facets w).

Lemma fits_whole w : fits w -> whole w.
Proof.
  intros [H1 [H2 H3]] a b H. rewrite Forall_forall in H1, H2, H3. inversion H as [r b0 x f c s E|r b0 x f c u mn mx i E|r b0 x f c p mn mx ad di dv E|m mm k r E Hi|f fm k m E Hi]; subst.
  - apply nth_error_In, H1 in E. cbn in E. exact (proj1 E).
  - apply nth_error_In, H1 in E. cbn in E. exact (proj2 E).
  - apply nth_error_In, H1 in E. cbn in E. exact (proj2 E).
  - apply nth_error_In, H2 in E. rewrite Forall_forall in E. exact (E _ Hi).
  - apply nth_error_In, H3 in E. rewrite Forall_forall in E. exact (E _ Hi).
Qed.

(** More objects. *)
Definition grows (w w' : world) : Prop :=
  (List.length (w_types w) <= List.length (w_types w'))%nat /\ (List.length (w_maps w) <= List.length (w_maps w'))%nat /\ (List.length (w_facets w) <= List.length (w_facets w'))%nat.

Lemma type_fits_grows w w' t : grows w w' -> type_fits w t -> type_fits w' t.
Proof.
  intros [G1 [G2 G3]]. destruct t as [b|b x f c [u mn mx [i|]|p mn mx ad di dv|s]]; cbn; try tauto; intros [H1 H2]; split; try exact I; lia.
Qed.

Lemma fits_parts w w' ts ms fs : grows w w' -> fits w ->
  (forall t, In t ts -> In t (w_types w) \/ type_fits w' t) ->
  (forall mm e, In mm ms -> In e (ents mm) -> (exists m0, In m0 (w_maps w) /\ In e (ents m0)) \/ (snd e < List.length (w_types w'))%nat) ->
  (forall fm e, In fm fs -> In e (ents fm) -> (exists f0, In f0 (w_facets w) /\ In e (ents f0)) \/ (snd e < List.length (w_maps w'))%nat) ->
  w' = mkWorld ts ms fs -> fits w'.
Proof.
  intros G [H1 [H2 H3]] T M Q E. pose proof G as [G1 [G2 G3]]. rewrite Forall_forall in H1, H2, H3. split; [|split]; apply Forall_forall.
  - intros t Ht. rewrite E in Ht. destruct (T t Ht) as [O|N]; [exact (type_fits_grows _ _ _ G (H1 t O))|exact N].
  - intros mm Hm. rewrite E in Hm. apply Forall_forall. intros e He. destruct (M mm e Hm He) as [[m0 [I1 I2]]|N]; [|exact N].
    specialize (H2 m0 I1). rewrite Forall_forall in H2. specialize (H2 e I2). lia.
  - intros fm Hf. rewrite E in Hf. apply Forall_forall. intros e He. destruct (Q fm e Hf He) as [[f0 [I1 I2]]|N]; [|exact N].
    specialize (H3 f0 I1). rewrite Forall_forall in H3. specialize (H3 e I2). lia.
Qed.

Lemma in_set_nth {A} i (a : A) l b : In b (set_nth i a l) -> In b l \/ b = a.
Proof.
  revert i. induction l as [|c l IH]; intros [|i]; cbn; auto.
  - intros [<-|H]; auto.
  - intros [<-|H]; auto. destruct (IH i H); auto.
Qed.

Lemma grows_refl w : grows w w.
Proof. repeat split; lia. Qed.

Ltac old := let H := fresh in intros * H; left; exact H.
Ltac old_in := let H := fresh in let H' := fresh in intros * H H'; left; eexists; split; [exact H|exact H'].

Lemma fits_put_type w r t : fits w -> type_fits w t -> fits (put_type r t w).
Proof.
  intros H Ht. assert (G : grows w (put_type r t w)) by (repeat split; cbn; rewrite ?set_nth_length; lia).
  eapply (fits_parts w _ _ _ _ G H); [| | |reflexivity]; [|old_in|old_in].
  intros t' Ht'. apply in_set_nth in Ht' as [O| ->]; [left; exact O|right; exact (type_fits_grows _ _ _ G Ht)].
Qed.

Lemma fits_new_type w t : fits w -> type_fits w t -> fits (new_at_end_type t w).
Proof.
  intros H Ht. assert (G : grows w (new_at_end_type t w)) by (repeat split; cbn; rewrite ?app_length; cbn; lia).
  eapply (fits_parts w _ _ _ _ G H); [| | |reflexivity]; [|old_in|old_in].
  intros t' Ht'. apply in_app_or in Ht' as [O|[<-|[]]]; [left; exact O|right; exact (type_fits_grows _ _ _ G Ht)].
Qed.

Lemma fits_new_map w mm : fits w -> ents mm = [] -> fits (new_at_end_map mm w).
Proof.
  intros H Hm. assert (G : grows w (new_at_end_map mm w)) by (repeat split; cbn; rewrite ?app_length; cbn; lia).
  eapply (fits_parts w _ _ _ _ G H); [| | |reflexivity]; [old| |old_in].
  intros m0 e H0 He. apply in_app_or in H0 as [O|[<-|[]]]; [left; eauto|]. rewrite Hm in He. destruct He.
Qed.

Lemma fits_new_facets w fm : fits w -> ents fm = [] -> fits (new_at_end_facets fm w).
Proof.
  intros H Hm. assert (G : grows w (new_at_end_facets fm w)) by (repeat split; cbn; rewrite ?app_length; cbn; lia).
  eapply (fits_parts w _ _ _ _ G H); [| | |reflexivity]; [old|old_in|].
  intros m0 e H0 He. apply in_app_or in H0 as [O|[<-|[]]]; [left; eauto|]. rewrite Hm in He. destruct He.
Qed.

Lemma fits_type w r t : fits w -> nth_error (w_types w) r = Some t -> type_fits w t.
Proof. intros [H _] E. rewrite Forall_forall in H. exact (H _ (nth_error_In _ _ E)). Qed.

Lemma fits_apply w h : fits w -> given_objects w h -> fits (h_apply h w).
Proof.
  intros H Hg. destruct h as [| |k|r op|r i|r m|r f|m e|f e]; cbn [h_apply].
  - apply fits_new_map; [exact H|reflexivity].
  - apply fits_new_facets; [exact H|reflexivity].
  - assert (N : forall b x c s, match s with HOther _ => True | HArray _ _ _ None => True | _ => False end -> fits (new_at_end_type (HExt b x (List.length (w_facets w)) c s) (new_at_end_facets anew w))).
    { intros b x c s Hs. apply fits_new_type; [apply fits_new_facets; [exact H|reflexivity]|]. cbn. rewrite app_length. cbn. split; [lia|].
      destruct s as [u mn mx [i|]|p mn mx ad di dv|s]; try exact I; destruct Hs. }
    destruct k; cbn [h_new]; try (apply N; exact I); try (apply fits_new_type; [exact H|exact I]).
    apply fits_new_type; [apply fits_new_map; [apply fits_new_facets; [exact H|reflexivity]|reflexivity]|]. cbn. rewrite !app_length. cbn. lia.
  - destruct (nth_error (w_types w) r) as [t|] eqn:E; [|exact H]. apply fits_put_type; [exact H|]. apply (fits_type w r t H) in E.
    destruct t as [b|b x f c s]; [exact I|]. cbn in *. destruct E as [E1 E2]. split; [exact E1|].
    destruct s as [u mn mx [i|]|p mn mx ad di dv|s]; cbn in *; destruct op; exact E2 || exact I.
  - destruct (nth_error (w_types w) r) as [[b|b x f c [u mn mx it|p mn mx ad di dv|s]]|] eqn:E; try exact H. apply fits_put_type; [exact H|]. apply (fits_type w r _ H) in E.
    cbn in *. destruct i as [i|]; [split; [exact (proj1 E)|exact Hg]|split; [exact (proj1 E)|exact I]].
  - destruct (nth_error (w_types w) r) as [[b|b x f c [u mn mx it|p mn mx ad di dv|s]]|] eqn:E; try exact H. apply (fits_type w r _ H) in E. cbn in E. destruct m as [m|].
    + apply fits_put_type; [exact H|]. cbn. split; [exact (proj1 E)|exact Hg].
    + apply fits_put_type; [apply fits_new_map; [exact H|reflexivity]|]. cbn. rewrite app_length. cbn. lia.
  - destruct (nth_error (w_types w) r) as [[b|b x f0 c s]|] eqn:E; try exact H. apply (fits_type w r _ H) in E. cbn in E. destruct f as [f|].
    + apply fits_put_type; [exact H|]. cbn. split; [exact Hg|exact (proj2 E)].
    + apply fits_put_type; [apply fits_new_facets; [exact H|reflexivity]|]. cbn. rewrite app_length. cbn. split; [lia|]. exact (proj2 E).
  - destruct (nth_error (w_maps w) m) as [mm|] eqn:E; [|exact H]. assert (G : grows w (put_map m (e mm) w)) by (repeat split; cbn; rewrite ?set_nth_length; lia).
    eapply (fits_parts w _ _ _ _ G H); [| | |reflexivity]; [old| |old_in]. intros m0 x H0 Hx. apply in_set_nth in H0 as [O| ->]; [left; eauto|].
    destruct (Hg mm x E Hx) as [O|O]; [left; exists mm; split; [exact (nth_error_In _ _ E)|exact O]|right; exact O].
  - destruct (nth_error (w_facets w) f) as [fm|] eqn:E; [|exact H]. assert (G : grows w (put_facets f (e fm) w)) by (repeat split; cbn; rewrite ?set_nth_length; lia).
    eapply (fits_parts w _ _ _ _ G H); [| | |reflexivity]; [old|old_in|]. intros m0 x H0 Hx. apply in_set_nth in H0 as [O| ->]; [left; eauto|].
    destruct (Hg fm x E Hx) as [O|O]; [left; exists fm; split; [exact (nth_error_In _ _ E)|exact O]|right; exact O].
Qed.

Lemma reached_fits w : reached w -> fits w.
Proof. intros H. induction H as [|w h _ IH Hg]; [repeat split; constructor|exact (fits_apply w h IH Hg)]. Qed.

Lemma reached_complete w a : reached w -> exists_in w a -> complete w a.
Proof.
  intros H Ha b Hb. apply reached_fits, fits_whole in H. apply clos_rt_rtn1_iff in Hb. destruct Hb as [|y z Hy _]; [exact Ha|exact (H y z Hy)].
Qed.

(** Written if and only if nothing in it contains itself. *)
Lemma reached_tree w r : reached w -> exists_in w (AType r) -> no_cycle w (AType r) -> exists d, tree (List.length (w_types w)) w r = Some d.
Proof. intros H E N. apply no_cycle_tree; [exact (reached_complete w (AType r) H E)|exact N]. Qed.
