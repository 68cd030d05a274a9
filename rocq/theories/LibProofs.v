(** Proofs about reading libraries. *)
From Coq Require Import SpecFloat.
From Verif Require Import Base Num OMap OMapSpec Keys Yaml Values Assign Formats Meta Out Xml Example DataType Marshal Doc Api Library
  AssignProofs TypeFacts Fields FieldProofs FacetSpec FacetProofs DocProofs OrderProofs PathProofs Lens Segs ExProofs Parts ApiFields ApiSpec ApiProofs.

Ltac key_cases v := unfold lib_keys; cbn [look];
  repeat match goal with |- context [String.eqb v ?k] => destruct (String.eqb_spec v k) as [->|]; [reflexivity|] end.

Lemma lib_mine_named f s p : In (s, f) lib_keys -> f <> LTypes -> f <> LAnnotations -> lib_mine f p = text_key s p.
Proof.
  intros Hi Ht Ha. unfold lib_mine, mine, lib_target, text_key.
  assert (Hf : f <> LExtra) by (intros ->; cbn in Hi; intuition discriminate).
  cbn in Hi. generalize (value (fst p)) as v. intros v.
  destruct Hi as [Hi|Hi]; [exfalso; injection Hi as <- <-; apply Ha; reflexivity|].
  assert (G : forall f s, In (s, f) [("resourceTypes", LResourceTypes); ("traits", LTraits); ("uses", LUses); ("usage", LUsage);
    ("securitySchemes", LSecuritySchemes)] -> match match look v lib_keys with Some f0 => Some f0 | None => if is_string (fst p) then
      match v with EmptyString => None | String c _ => if Ascii.eqb c "(" then Some LAnnotations else Some LExtra end else Some LExtra end with
      Some q => if lfield_dec f q then true else false | None => false end = String.eqb v s).
  { clear. intros f s Hi. cbn in Hi. destruct Hi as [Hi|[Hi|[Hi|[Hi|[Hi|Hi]]]]]; [| | | | |destruct Hi]; injection Hi as <- <-; key_cases v;
      (destruct (is_string (fst p)); [destruct v as [|c r]; [reflexivity|]; destruct (Ascii.eqb c "("); reflexivity|reflexivity]). }
  apply G. cbn. destruct Hi as [Hi|[Hi|[Hi|Hi]]]; [auto| | |tauto]; exfalso; injection Hi as <- <-; apply Ht; reflexivity.
Qed.

Lemma lib_mine_types p : lib_mine LTypes p = lib_types_key p.
Proof.
  unfold lib_mine, mine, lib_target, lib_types_key, text_key. generalize (value (fst p)) as v. intros v. key_cases v.
  destruct (is_string (fst p)); [destruct v as [|c r]; [reflexivity|]; destruct (Ascii.eqb c "("); reflexivity|reflexivity].
Qed.

Lemma lib_mine_annotations p : text_key "annotationTypes" p = false -> lib_mine LAnnotations p = is_annotation_key (fst p).
Proof.
  unfold lib_mine, mine, lib_target, text_key, is_annotation_key. generalize (value (fst p)) as v. intros v H.
  destruct (String.eqb_spec v "annotationTypes") as [|N]; [discriminate H|]. unfold lib_keys. cbn [look].
  destruct (String.eqb_spec v "annotationTypes") as [|_]; [contradiction|].
  repeat match goal with |- context [String.eqb v ?k] => destruct (String.eqb_spec v k) as [->|]; [destruct (is_string (fst p)); reflexivity|] end.
  destruct (is_string (fst p)); [destruct v as [|c r]; [reflexivity|]; destruct (Ascii.eqb c "("); reflexivity|reflexivity].
Qed.

Lemma lib_mine_extra p : lib_mine LExtra p = lib_extra_key p.
Proof.
  unfold lib_mine, mine, lib_target, lib_extra_key, is_annotation_key, lib_names. generalize (value (fst p)) as v. intros v. cbn [existsb]. key_cases v.
  destruct (is_string (fst p)); [destruct v as [|c r]; [reflexivity|]; destruct (Ascii.eqb c "("); reflexivity|reflexivity].
Qed.

Lemma lib_mine_none p : lib_mine LAnnotationTypes p = false.
Proof.
  unfold lib_mine, mine, lib_target. generalize (value (fst p)) as v. intros v. key_cases v.
  destruct (is_string (fst p)); [destruct v as [|c r]; [reflexivity|]; destruct (Ascii.eqb c "("); reflexivity|reflexivity].
Qed.

Section ReadLib.
  Context {F : FloatIO}.

  (** The annotation types of a library are never read. *)
  Lemma annotation_types_unread l a a' : fold_res lib_assign a l = Ok a' -> l_annotationTypes a' = l_annotationTypes a.
  Proof.
    intros H. pose proof (lib_fold l a a' H LAnnotationTypes) as A.
    assert (E : filter (lib_mine LAnnotationTypes) l = []) by (clear; induction l as [|e l IH]; [reflexivity|]; cbn [filter]; rewrite lib_mine_none; exact IH).
    rewrite E in A. cbn in A. injection A as A. symmetry. exact A.
  Qed.

  Lemma none_pairs k l : Forall (fun p => k p = false) l -> pairs_under k l = [].
  Proof.
    intros H. unfold pairs_under. induction H as [|p l Hp _ IH]; [reflexivity|]. cbn [filter]. rewrite Hp. exact IH.
  Qed.

  Lemma filter_eq_in {A} (p q : A -> bool) l : (forall x, In x l -> p x = q x) -> filter p l = filter q l.
  Proof. intros H. apply filter_ext_in. exact H. Qed.

  Lemma fold_step_eq {S} (f g : S -> node * node -> res S) l : (forall s e, In e l -> f s e = g s e) -> forall s, fold_res f s l = fold_res g s l.
  Proof.
    induction l as [|e l IH]; intros H s; [reflexivity|]. cbn [fold_res]. rewrite (H s e) by (left; reflexivity).
    destruct (g s e); [|reflexivity|reflexivity]. cbn [bind]. apply IH. intros s' e' Hi. apply H. right. exact Hi.
  Qed.

  Lemma lib_reads l a : Forall (fun p => text_key "annotationTypes" p = false) l -> fold_res lib_assign new_library l = Ok a -> lib_document l a.
  Proof.
    intros Hn H. pose proof (lib_fold l new_library a H) as A. unfold lib_document, pairs_under.
    assert (N : forall f s, In (s, f) lib_keys -> f <> LTypes -> f <> LAnnotations ->
      fold_res (lib_step f) (lget f new_library) (filter (text_key s) l) = Ok (lget f a)).
    { intros f s H1 H2 H3. rewrite <- (A f). f_equal. apply filter_eq. intros x. symmetry. apply lib_mine_named; assumption. }
    split.
    { refine (fold_said _ (fun n o => exists s, denotes_string n s /\ o = Some s) _ _ l _ _ (N LUsage "usage" _ _ _)); [|cbn; tauto|discriminate|discriminate].
      intros old e v. apply string_ptr_step. }
    split. { apply filled_strings. apply (fold_amap to_str _ _ _ (N LUses "uses" ltac:(cbn; tauto) ltac:(discriminate) ltac:(discriminate))). }
    split. { apply filled_as_is. apply (fold_amap as_gnode _ _ _ (N LSecuritySchemes "securitySchemes" ltac:(cbn; tauto) ltac:(discriminate) ltac:(discriminate))). }
    split. { apply filled_as_is. apply (fold_amap as_gnode _ _ _ (N LTraits "traits" ltac:(cbn; tauto) ltac:(discriminate) ltac:(discriminate))). }
    split. { apply filled_as_is. apply (fold_amap as_gnode _ _ _ (N LResourceTypes "resourceTypes" ltac:(cbn; tauto) ltac:(discriminate) ltac:(discriminate))). }
    split.
    { fold (pairs_under (text_key "annotationTypes") l). rewrite none_pairs by exact Hn. rewrite (annotation_types_unread l new_library a H).
      exists []. split; [constructor|reflexivity]. }
    split.
    { rewrite (filter_eq _ _ l (fun x => eq_sym (lib_mine_types x))). exact (fold_amap hat _ _ _ (A LTypes)). }
    split.
    { pose proof (A LAnnotations) as B. rewrite Forall_forall in Hn.
      rewrite (filter_eq_in _ (fun p => is_annotation_key (fst p)) l (fun x Hx => lib_mine_annotations x (Hn x Hx))) in B.
      rewrite (fold_step_eq _ (fun m p => do a <- read_annotation (snd p); Ok (mput (value (fst p)) a m))) in B.
      - exact (fold_ann_entries _ _ _ B).
      - intros s e Hi. apply filter_In in Hi as [Hi _]. apply Hn in Hi. unfold text_key in Hi. cbn [lib_step]. rewrite Hi. reflexivity. }
    rewrite (filter_eq _ _ l (fun x => eq_sym (lib_mine_extra x))). exact (fold_extra_entries _ _ _ (A LExtra)).
  Qed.

  Lemma said_by_fun {B} k l (R : node -> B -> Prop) d o o' : (forall n a b, R n a -> R n b -> a = b) ->
    said_by k l R d o -> said_by k l R d o' -> o = o'.
  Proof. unfold said_by. intros H. destruct (last_of _ _) as [p|]; [apply H|congruence]. Qed.

  Lemma lib_document_fun l a b : lib_document l a -> lib_document l b -> a = b.
  Proof.
    intros (A1 & A2 & A3 & A4 & A5 & A6 & A7 & A8 & A9) (B1 & B2 & B3 & B4 & B5 & B6 & B7 & B8 & B9).
    assert (D1 : forall n a b, denotes_string n a -> denotes_string n b -> a = b) by (intros; eapply denotes_string_fun; eassumption).
    assert (D2 : forall n (a b : option string), (exists s, denotes_string n s /\ a = Some s) -> (exists s, denotes_string n s /\ b = Some s) -> a = b).
    { intros n x y [s [Hs ->]] [s' [Hs' ->]]. f_equal. eapply D1; eassumption. }
    assert (D4 : forall n a b, as_is n a -> as_is n b -> a = b) by (unfold as_is; congruence).
    apply lib_ext. intros f. destruct f; cbn [lget].
    all: try (eapply said_by_fun; [|eassumption|eassumption]; assumption).
    all: try (eapply filled_fun; [|eassumption|eassumption]; assumption).
    - eapply anns_fun; eassumption.
    - eapply extras_fun; eassumption.
    - eapply filled_fun; [|eassumption|eassumption]. cbv beta. congruence.
  Qed.

  Definition lib_wants (f : lfield) (p : node * node) : Prop :=
    match f with
    | LUsage => exists s, denotes_string (snd p) s
    | LUses => mapping_of (fun n => exists s, denotes_string n s) (snd p)
    | LSecuritySchemes | LTraits | LAnnotationTypes | LResourceTypes => mapping_of (fun _ => True) (snd p)
    | LTypes => mapping_of (fun n => exists d, hat n = Ok d) (snd p)
    | LAnnotations => if text_key "annotationTypes" p then mapping_of (fun n => exists a, read_annotation n = Ok a) (snd p) else exists a, read_annotation (snd p) = Ok a
    | LExtra => exists k, to_scalar (fst p) = Ok k
    end.

  Lemma lib_step_wants f v p : (exists w, lib_step f v p = Ok w) <-> lib_wants f p.
  Proof.
    destruct f; cbn [lib_step lib_wants].
    all: try apply untyped_accept.
    all: try apply uses_accept.
    all: try apply (amap_accept hat).
    - split; [intros [w H]; apply string_ptr_step in H as [s [H _]]; eauto|intros [s H]; exists (Some s); apply string_ptr_step; eauto].
    - unfold text_key. destruct (String.eqb (value (fst p)) "annotationTypes"); [apply (amap_accept read_annotation)|].
      split; [intros [w H]; apply bind_ok in H as [a [H _]]; eauto|intros [a H]; rewrite H; cbn; eauto].
    - split; [intros [w H]; apply bind_ok in H as [a [H _]]; eauto|intros [a H]; rewrite H; cbn; eauto].
  Qed.

  Lemma lib_acceptable_wants p : text_key "annotationTypes" p = false ->
    (lib_acceptable p <-> match lib_target p with Some f => lib_wants f p | None => False end).
  Proof.
    unfold lib_acceptable, lib_target, lib_types_key, lib_extra_key, text_key, is_annotation_key. intros Hn.
    assert (Z : denotes_string (fst p) "" <-> is_string (fst p) = true /\ value (fst p) = "").
    { unfold denotes_string, is_string. destruct (node_tag (fst p)); intuition congruence. }
    rewrite Z. clear Z. assert (W : forall f, f = LAnnotations -> lib_wants f p <-> exists a, read_annotation (snd p) = Ok a).
    { intros f ->. cbn [lib_wants]. unfold text_key. rewrite Hn. reflexivity. }
    specialize (W LAnnotations eq_refl). revert Hn W. generalize (value (fst p)) as v. intros v Hn W.
    destruct (String.eqb_spec v "annotationTypes") as [|N]; [discriminate Hn|].
    unfold lib_names, lib_keys. cbn [existsb look].
    destruct (String.eqb_spec v "annotationTypes") as [|_]; [contradiction|].
    repeat match goal with |- context [String.eqb v ?k] =>
      match k with "" => fail 1 | _ => idtac end;
      destruct (String.eqb_spec v k) as [->|]; [destruct (is_string (fst p)); cbn; intuition congruence|] end.
    destruct (is_string (fst p)).
    2:{ cbn. intuition congruence. }
    destruct v as [|c r]; [cbn; intuition congruence|].
    destruct (Ascii.eqb_spec c "(") as [->|N1]; [rewrite W; cbn; intuition congruence|]. cbn. intuition congruence.
  Qed.

  Lemma lib_step_good l : forall a, Forall (fun p => text_key "annotationTypes" p = false) l ->
    ((exists a', fold_res lib_assign a l = Ok a') <-> Forall lib_acceptable l).
  Proof.
    intros a Hn. rewrite (parts_accept lty lget lset lib_target lib_step lib_assign lib_assign_step
      (fun p => match lib_target p with Some f => lib_wants f p | None => False end)).
    - rewrite !Forall_forall. rewrite Forall_forall in Hn. split; intros H x Hx; specialize (H x Hx); apply (lib_acceptable_wants x (Hn x Hx)); exact H.
    - intros e f v T. rewrite T. apply lib_step_wants.
    - intros e T. rewrite T. tauto.
  Qed.

  Lemma lib_read_iff t l a : Forall (fun p => text_key "annotationTypes" p = false) l ->
    (lib_unmarshal (Map t l) new_library = Ok a <-> Forall lib_acceptable l /\ lib_document l a).
  Proof.
    intros Hn. unfold lib_unmarshal, map_fold. split.
    - intros H. split; [apply (lib_step_good l new_library Hn); eauto|apply lib_reads; assumption].
    - intros [H1 H2]. apply (lib_step_good l new_library Hn) in H1 as [a' H1]. rewrite H1. f_equal.
      eapply lib_document_fun; [apply lib_reads; [exact Hn|exact H1]|exact H2].
  Qed.
End ReadLib.
