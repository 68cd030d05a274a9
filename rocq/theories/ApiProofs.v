(** Proofs about reading documentation entries, API documents and libraries. *)
From Coq Require Import SpecFloat.
From Verif Require Import Base Num OMap OMapSpec Keys Yaml Values Assign Formats Meta Out Xml Example DataType Marshal Doc Api Library
  AssignProofs TypeFacts Fields FieldProofs FacetSpec FacetProofs DocProofs OrderProofs PathProofs Lens Segs ExProofs Parts ApiFields ApiSpec.

(** ** Keys *)

Lemma named_key_iff s p : named_key s p = true <-> is_string (fst p) = true /\ value (fst p) = s.
Proof. unfold named_key. rewrite andb_true_iff, String.eqb_eq. reflexivity. Qed.

Lemma api_mine_named f s p : In (s, f) api_keys -> f <> ATypes -> api_mine f p = named_key s p.
Proof.
  intros Hi Ht. unfold api_mine, mine, api_target, named_key.
  assert (Hf : f <> AExtra) by (intros ->; cbn in Hi; intuition discriminate).
  destruct (is_string (fst p)) eqn:Es.
  2:{ cbn. destruct (afield_dec f AExtra); [congruence|reflexivity]. }
  cbn [andb]. destruct (value (fst p)) as [|c r] eqn:Ev.
  - cbn in Hi. repeat (destruct Hi as [Hi|Hi]; [injection Hi as <- <-; reflexivity|]). destruct Hi.
  - destruct (Ascii.eqb_spec c "(") as [->|N1].
    { cbn in Hi. repeat (destruct Hi as [Hi|Hi]; [injection Hi as <- <-; reflexivity|]). destruct Hi. }
    destruct (Ascii.eqb_spec c "/") as [->|N2].
    { cbn in Hi. repeat (destruct Hi as [Hi|Hi]; [injection Hi as <- <-; reflexivity|]). destruct Hi. }
    generalize (String c r) as v. intros v. cbn in Hi.
    repeat (destruct Hi as [Hi|Hi]; [injection Hi as <- <-; try congruence; unfold api_keys; cbn [look];
      repeat match goal with |- context [String.eqb v ?k] => destruct (String.eqb_spec v k) as [->|]; [reflexivity|] end; reflexivity|]).
    destruct Hi.
Qed.

Lemma api_mine_types p : api_mine ATypes p = is_types_key p.
Proof.
  unfold api_mine, mine, api_target, is_types_key, named_key. destruct (is_string (fst p)); [|reflexivity]. cbn [andb].
  destruct (value (fst p)) as [|c r]; [reflexivity|].
  destruct (Ascii.eqb_spec c "(") as [->|N1]; [reflexivity|]. destruct (Ascii.eqb_spec c "/") as [->|N2]; [reflexivity|].
  generalize (String c r) as v. intros v. unfold api_keys. cbn [look].
  repeat match goal with |- context [String.eqb v ?k] => destruct (String.eqb_spec v k) as [->|]; [reflexivity|] end. reflexivity.
Qed.

Lemma api_mine_annotations p : api_mine AAnnotations p = is_annotation_key (fst p).
Proof.
  unfold api_mine, mine, api_target, is_annotation_key. destruct (is_string (fst p)); [|reflexivity]. cbn [andb].
  destruct (value (fst p)) as [|c r]; [reflexivity|]. destruct (Ascii.eqb c "("); [reflexivity|]. destruct (Ascii.eqb c "/"); [reflexivity|].
  generalize (String c r) as v. intros v. unfold api_keys. cbn [look].
  repeat match goal with |- context [String.eqb v ?k] => destruct (String.eqb v k); [reflexivity|] end. reflexivity.
Qed.

Lemma api_mine_resources p : api_mine AResources p = is_resource_key (fst p).
Proof.
  unfold api_mine, mine, api_target, is_resource_key. destruct (is_string (fst p)); [|reflexivity]. cbn [andb].
  destruct (value (fst p)) as [|c r]; [reflexivity|]. destruct (Ascii.eqb_spec c "(") as [->|]; [reflexivity|].
  destruct (Ascii.eqb c "/"); [reflexivity|].
  generalize (String c r) as v. intros v. unfold api_keys. cbn [look].
  repeat match goal with |- context [String.eqb v ?k] => destruct (String.eqb v k); [reflexivity|] end. reflexivity.
Qed.

Lemma api_mine_extra p : api_mine AExtra p = api_extra_key p.
Proof.
  unfold api_mine, mine, api_target, api_extra_key, is_annotation_key, is_resource_key. destruct (is_string (fst p)); [|reflexivity]. cbn [andb].
  destruct (value (fst p)) as [|c r]; [reflexivity|]. destruct (Ascii.eqb_spec c "(") as [->|]; [reflexivity|].
  destruct (Ascii.eqb_spec c "/") as [->|]; [reflexivity|]. cbn [orb].
  assert (E0 : String.eqb (String c r) "" = false) by reflexivity. revert E0.
  generalize (String c r) as v. intros v E0. unfold api_keys, api_names. cbn [look existsb]. rewrite E0. cbn [orb].
  repeat match goal with |- context [String.eqb v ?k] => destruct (String.eqb v k); [reflexivity|] end. reflexivity.
Qed.

(** ** Loops over the pairs of one field *)

Lemma fold_said {B} (st : B -> node * node -> res B) (R : node -> B -> Prop) p : (forall old e v, st old e = Ok v -> R (snd e) v) ->
  forall l d v, fold_res st d (filter p l) = Ok v -> match last_of p l with Some e => R (snd e) v | None => v = d end.
Proof.
  intros H l. induction l as [|e l IH] using rev_ind; intros d v Hf.
  - cbn in Hf. injection Hf as <-. reflexivity.
  - rewrite last_of_snoc. rewrite filter_app in Hf. cbn [filter] in Hf. destruct (p e).
    + rewrite fold_res_app in Hf. apply bind_ok in Hf as [w [_ Hf]]. cbn in Hf. rewrite bind_ret in Hf. eapply H. exact Hf.
    + rewrite app_nil_r in Hf. apply IH. exact Hf.
Qed.

Lemma mputs_app {V} (a b : list (string * V)) m : mputs (a ++ b) m = mputs b (mputs a m).
Proof. apply fold_left_app. Qed.

Lemma fold_amap {V} (dec : node -> res V) l : forall m v, fold_res (fun old e => read_amap dec old (snd e)) m l = Ok v ->
  exists kvs, Forall2 (accepts dec) (flat_map pairs_of (map (@snd node node) l)) kvs /\ v = mputs kvs m.
Proof.
  induction l as [|e l IH]; intros m v H; cbn [fold_res] in H.
  - injection H as <-. exists []. split; [constructor|reflexivity].
  - apply bind_ok in H as [m1 [H1 H]]. apply read_amap_map in H1 as [t [l1 [k1 [E [A ->]]]]]. apply IH in H as [k2 [B ->]].
    exists (k1 ++ k2). split; [|symmetry; apply mputs_app]. cbn [map flat_map]. rewrite E. apply Forall2_app; assumption.
Qed.

Lemma fold_resources l : forall (m : untyped) v,
  fold_res (fun (old : untyped) (e : node * node) => Ok (mput (value (fst e)) (GNode (snd e)) old)) m l = Ok v ->
  v = mputs (map (fun p => (value (fst p), GNode (snd p))) l) m.
Proof.
  induction l as [|e l IH]; intros m v H; cbn [fold_res] in H.
  - injection H as <-. reflexivity.
  - cbn [bind] in H. apply IH in H. exact H.
Qed.

Section Docs.
  Context {F : FloatIO}.

  Lemma doc_accept d e : (exists d', doc_assign d e = Ok d') <-> doc_acceptable e.
  Proof.
    unfold doc_assign, doc_acceptable. destruct (String.eqb_spec (value (fst e)) "title") as [E|N1]; [rewrite E; cbn; split; eauto|].
    destruct (String.eqb_spec (value (fst e)) "content") as [E|N2]; [rewrite E; cbn; split; eauto|]. split.
    - intros [d' H]. apply bind_ok in H as [k [H _]]. eauto.
    - intros [H|[k H]]; [cbn in H; intuition congruence|]. rewrite H. cbn. eauto.
  Qed.

  Lemma doc_reads l d : fold_res doc_assign new_doc l = Ok d -> doc_document l d.
  Proof.
    intros H. unfold doc_document. split; [|split].
    - apply (lens_last doc_assign doc_title (fun p => String.eqb (value (fst p)) "title") (fun p o => o = value (snd p))) in H; [exact H|].
      intros s p s' A. unfold doc_assign in A. destruct (String.eqb (value (fst p)) "title"); [injection A as <-; reflexivity|].
      destruct (String.eqb (value (fst p)) "content"); [injection A as <-; reflexivity|]. apply bind_ok in A as [k [_ A]]. injection A as <-. reflexivity.
    - apply (lens_last doc_assign doc_content (fun p => String.eqb (value (fst p)) "content") (fun p o => o = value (snd p))) in H; [exact H|].
      intros s p s' A. unfold doc_assign in A. destruct (String.eqb_spec (value (fst p)) "title") as [E|N].
      { rewrite E. injection A as <-. reflexivity. }
      destruct (String.eqb (value (fst p)) "content"); [injection A as <-; reflexivity|]. apply bind_ok in A as [k [_ A]]. injection A as <-. reflexivity.
    - apply (fold_lens doc_assign doc_extra (fun p => negb (existsb (String.eqb (value (fst p))) ["title"; "content"]))
               (fun m p => do k <- to_scalar (fst p); Ok (kput k (GNode (snd p)) m))) in H.
      + apply fold_extra_entries in H. exact H.
      + intros s p s' A. unfold doc_assign in A. cbn [existsb]. destruct (String.eqb (value (fst p)) "title"); [injection A as <-; reflexivity|].
        destruct (String.eqb (value (fst p)) "content"); [injection A as <-; reflexivity|]. apply bind_ok in A as [k [A' A]]. injection A as <-.
        cbn. rewrite A'. reflexivity.
  Qed.

  Lemma doc_document_fun l d d' : doc_document l d -> doc_document l d' -> d = d'.
  Proof.
    intros [A [B [k [C D]]]] [A' [B' [k' [C' D']]]]. destruct d as [t c x], d' as [t' c' x']. cbn in *.
    assert (k = k') by (eapply Forall2_fun; [|exact C|exact C']; intros p [] [] [Q1 Q2] [Q3 Q4]; cbn in *; congruence). subst.
    f_equal.
    - destruct (last_of _ l) in A, A'; congruence.
    - destruct (last_of (fun p => String.eqb (value (fst p)) "content") l) in B, B'; congruence.
  Qed.

  Lemma doc_describes n d : doc_unmarshal n new_doc = Ok d <-> describes_doc n d.
  Proof.
    unfold doc_unmarshal, describes_doc. destruct n as [| |t l]; cbn [map_fold]; try (split; [discriminate|intros [t' [l' [E _]]]; discriminate E]).
    split.
    - intros H. exists t, l. split; [reflexivity|]. split; [|exact (doc_reads l d H)].
      apply (fold_accept doc_assign doc_acceptable doc_accept l new_doc). eauto.
    - intros [t' [l' [E [H1 H2]]]]. injection E as <- <-.
      apply (fold_accept doc_assign doc_acceptable doc_accept l new_doc) in H1 as [d' H]. rewrite H. f_equal.
      eapply doc_document_fun; [exact (doc_reads l d' H)|exact H2].
  Qed.

  Definition add_docs (old : option (list doc)) (ds : list doc) : option (list doc) :=
    match ds with [] => old | _ => Some (opt_list old ++ ds) end.

  Lemma read_docs_fold l : forall old v, fold_res read_doc old l = Ok v <-> exists ds, Forall2 describes_doc l ds /\ v = add_docs old ds.
  Proof.
    induction l as [|n l IH]; intros old v; cbn [fold_res].
    - split; [intros H; injection H as <-; exists []; split; [constructor|reflexivity]|]. intros [ds [H ->]]. inversion H; subst. reflexivity.
    - split.
      + intros H. apply bind_ok in H as [o1 [H1 H]]. unfold read_doc in H1. apply bind_ok in H1 as [d [Hd H1]]. injection H1 as <-.
        apply IH in H as [ds [Hl ->]]. exists (d :: ds). split; [constructor; [apply doc_describes; exact Hd|exact Hl]|].
        destruct ds; cbn; [destruct old; reflexivity|]. rewrite <- app_assoc. destruct old; reflexivity.
      + intros [ds0 [H ->]]. inversion H as [|x d y ds Hd Hl]; subst. apply doc_describes in Hd. unfold read_doc at 1. rewrite Hd. cbn [bind].
        apply IH. exists ds. split; [exact Hl|]. destruct ds; cbn; [destruct old; reflexivity|]. rewrite <- app_assoc. destruct old; reflexivity.
  Qed.

  Lemma add_docs_app old a b : add_docs (add_docs old a) b = add_docs old (a ++ b).
  Proof.
    destruct a as [|x a], b as [|y b]; cbn; rewrite ?app_nil_r; try reflexivity. rewrite <- app_assoc. reflexivity.
  Qed.

  Lemma fold_docs l : forall old v, fold_res (fun old e => read_docs (snd e) old) old l = Ok v ->
    exists ds, Forall2 describes_doc (flat_map items_of (map (@snd node node) l)) ds /\ v = add_docs old ds.
  Proof.
    induction l as [|e l IH]; intros old v H; cbn [fold_res] in H.
    - injection H as <-. exists []. split; [constructor|reflexivity].
    - apply bind_ok in H as [o1 [H1 H]]. unfold read_docs, seq_fold in H1. destruct (snd e) as [|t ns|] eqn:E; try discriminate H1.
      apply read_docs_fold in H1 as [d1 [A ->]]. apply IH in H as [d2 [B ->]]. exists (d1 ++ d2). cbn [map flat_map]. rewrite E.
      split; [apply Forall2_app; assumption|apply add_docs_app].
  Qed.

  Lemma read_media_iff n old v : read_media n old = Ok v <->
    (exists s, denotes_string n s /\ v = Some (opt_list old ++ [s])) \/ (node_tag n <> TStr /\ exists ss, denotes_strings n ss /\ v = Some ss).
  Proof.
    unfold read_media. destruct (is_string n) eqn:Es.
    - assert (T : node_tag n = TStr) by (unfold is_string in Es; destruct (node_tag n); congruence). split.
      + intros H. injection H as <-. left. exists (value n). split; [split; [exact T|reflexivity]|destruct old; reflexivity].
      + intros [[s [[_ <-] ->]]|[N _]]; [destruct old; reflexivity|contradiction].
    - assert (T : node_tag n <> TStr) by (unfold is_string in Es; destruct (node_tag n); congruence).
      pose proof (as_string_list_all n old) as [[l [H1 H2]]|[H1 H2]]; rewrite H2; cbn.
      + split.
        * intros H. injection H as <-. right. eauto.
        * intros [[s [[X _] _]]|[_ [ss [X ->]]]]; [contradiction|]. f_equal. f_equal.
          destruct H1 as [t [ns [-> H1]]], X as [t' [ns' [E X]]]. injection E as <- <-.
          eapply Forall2_fun; [|exact H1|exact X]. intros x y z. apply denotes_string_fun.
      + split; [discriminate|]. intros [[s [[X _] _]]|[_ [ss [X _]]]]; [contradiction|]. destruct (H1 ss X).
  Qed.

  Lemma fold_media l : forall old v, fold_res (fun old (e : node * node) => read_media (snd e) old) old l = Ok v -> media_list old (map snd l) v.
  Proof.
    induction l as [|e l IH]; intros old v H; cbn [fold_res] in H.
    - injection H as <-. constructor.
    - apply bind_ok in H as [o1 [H1 H]]. apply IH in H. apply read_media_iff in H1 as [[s [Hs ->]]|[N [ss [Hs ->]]]]; cbn [map].
      + eapply media_string; eassumption.
      + eapply media_strings; eassumption.
  Qed.
End Docs.

(** ** Reading an API document *)

Lemma filter_eq {A} (p q : A -> bool) l : (forall x, p x = q x) -> filter p l = filter q l.
Proof. intros H. apply filter_ext. exact H. Qed.

Section ReadApi.
  Context {F : FloatIO}.

  Lemma string_step n (old v : string) : run_assign (as_string n old) = Ok v <-> denotes_string n v.
  Proof.
    pose proof (helpers_all_or_nothing F) as (_ & _ & H & _). destruct (H n old) as [[a [Ha ->]]|[Hn ->]]; cbn.
    - split; [intros E; injection E as <-; exact Ha|]. intros Hv. f_equal. eapply denotes_string_fun; eassumption.
    - split; [discriminate|]. intros Hv. destruct (Hn _ Hv).
  Qed.

  Lemma string_ptr_step n (old v : option string) : run_assign (as_string_ptr n old) = Ok v <-> exists s, denotes_string n s /\ v = Some s.
  Proof.
    pose proof (helpers_all_or_nothing F) as (_ & _ & _ & H & _). destruct (H n old) as [[a [Ha ->]]|[Hn ->]]; cbn.
    - split; [intros E; injection E as <-; eauto|]. intros [s [Hv ->]]. do 2 f_equal. eapply denotes_string_fun; eassumption.
    - split; [discriminate|]. intros [s [Hv _]]. destruct (Hn _ Hv).
  Qed.

  Lemma denotes_strings_fun n a b : denotes_strings n a -> denotes_strings n b -> a = b.
  Proof.
    intros [t [ns [-> H1]]] [t' [ns' [E X]]]. injection E as <- <-. eapply Forall2_fun; [|exact H1|exact X].
    intros x y z. apply denotes_string_fun.
  Qed.

  Lemma string_list_step n (old v : option (list string)) : run_assign (as_string_list n old) = Ok v <-> exists s, denotes_strings n s /\ v = Some s.
  Proof.
    pose proof (helpers_all_or_nothing F) as (_ & _ & _ & _ & H & _). destruct (H n old) as [[a [Ha ->]]|[Hn ->]]; cbn.
    - split; [intros E; injection E as <-; eauto|]. intros [s [Hv ->]]. do 2 f_equal. eapply denotes_strings_fun; eassumption.
    - split; [discriminate|]. intros [s [Hv _]]. destruct (Hn _ Hv).
  Qed.

  Lemma to_str_iff n s : to_str n = Ok s <-> denotes_string n s.
  Proof.
    unfold to_str, denotes_string, is_string. destruct (node_tag n) eqn:T; cbn; split; intros H; try discriminate H; try (destruct H; discriminate);
      try (injection H as <-; auto). destruct H as [_ ->]. reflexivity.
  Qed.

  Lemma filled_strings l m : (exists kvs, Forall2 (accepts to_str) l kvs /\ m = mputs kvs (mkMap [] false)) -> filled denotes_string l m.
  Proof.
    intros [kvs [H ->]]. exists kvs. split; [|reflexivity]. eapply Forall2_impl; [|exact H]. intros a b [A B]. split; [exact A|].
    apply to_str_iff. exact B.
  Qed.

  Lemma filled_as_is l (m : untyped) : (exists kvs, Forall2 (accepts as_gnode) l kvs /\ m = mputs kvs (mkMap [] false)) -> filled as_is l m.
  Proof.
    intros [kvs [H ->]]. exists kvs. split; [|reflexivity]. eapply Forall2_impl; [|exact H]. intros a b [A B]. split; [exact A|].
    unfold as_gnode in B. injection B as B. symmetry. exact B.
  Qed.

  Lemma api_reads l a : fold_res api_assign new_api l = Ok a -> api_document l a.
  Proof.
    intros H. pose proof (api_fold l new_api a H) as A. unfold api_document, sections, entries_under, items_under.
    assert (N : forall f s, In (s, f) api_keys -> f <> ATypes ->
      fold_res (api_step f) (aget f new_api) (filter (named_key s) l) = Ok (aget f a)).
    { intros f s H1 H2. rewrite <- (A f). f_equal. apply filter_eq. intros x. symmetry. apply api_mine_named; assumption. }
    split.
    { refine (fold_said _ denotes_string _ _ l _ _ (N ATitle "title" _ _)); [|cbn; tauto|discriminate].
      intros old e v. apply string_step. }
    split.
    { refine (fold_said _ (fun n o => exists s, denotes_string n s /\ o = Some s) _ _ l _ _ (N AVersion "version" _ _)); [|cbn; tauto|discriminate].
      intros old e v. apply string_ptr_step. }
    split.
    { refine (fold_said _ (fun n o => exists s, denotes_string n s /\ o = Some s) _ _ l _ _ (N ABaseURI "baseUri" _ _)); [|cbn; tauto|discriminate].
      intros old e v. apply string_ptr_step. }
    split.
    { refine (fold_said _ (fun n o => exists s, denotes_string n s /\ o = Some s) _ _ l _ _ (N ADescription "description" _ _)); [|cbn; tauto|discriminate].
      intros old e v. apply string_ptr_step. }
    split.
    { refine (fold_said _ (fun n o => exists s, denotes_strings n s /\ o = Some s) _ _ l _ _ (N AProtocols "protocols" _ _)); [|cbn; tauto|discriminate].
      intros old e v. apply string_list_step. }
    split.
    { refine (fold_said _ (fun n o => exists s, denotes_strings n s /\ o = Some s) _ _ l _ _ (N ASecuredBy "securedBy" _ _)); [|cbn; tauto|discriminate].
      intros old e v. apply string_list_step. }
    split. { apply fold_media. apply (N AMediaType); [cbn; tauto|discriminate]. }
    split.
    { destruct (fold_docs _ _ _ (N ADocumentation "documentation" ltac:(cbn; tauto) ltac:(discriminate))) as [ds [D E]].
      exists ds. split; [exact D|]. cbn in E. rewrite E. destruct ds; reflexivity. }
    split. { apply filled_strings. apply (fold_amap to_str _ _ _ (N AUses "uses" ltac:(cbn; tauto) ltac:(discriminate))). }
    split. { apply filled_as_is. apply (fold_amap as_gnode _ _ _ (N ASecuritySchemes "securitySchemes" ltac:(cbn; tauto) ltac:(discriminate))). }
    split. { apply filled_as_is. apply (fold_amap as_gnode _ _ _ (N ABaseURIParameters "baseUriParameters" ltac:(cbn; tauto) ltac:(discriminate))). }
    split. { apply filled_as_is. apply (fold_amap as_gnode _ _ _ (N ATraits "traits" ltac:(cbn; tauto) ltac:(discriminate))). }
    split. { apply filled_as_is. apply (fold_amap as_gnode _ _ _ (N AAnnotationTypes "annotationTypes" ltac:(cbn; tauto) ltac:(discriminate))). }
    split. { apply filled_as_is. apply (fold_amap as_gnode _ _ _ (N AResourceTypes "resourceTypes" ltac:(cbn; tauto) ltac:(discriminate))). }
    split.
    { rewrite (filter_eq _ _ l (fun x => eq_sym (api_mine_types x))). exact (fold_amap hat _ _ _ (A ATypes)). }
    split.
    { rewrite (filter_eq _ _ l (fun x => eq_sym (api_mine_annotations x))). exact (fold_ann_entries _ _ _ (A AAnnotations)). }
    split.
    { rewrite (filter_eq _ _ l (fun x => eq_sym (api_mine_resources x))). exact (fold_resources _ _ _ (A AResources)). }
    rewrite (filter_eq _ _ l (fun x => eq_sym (api_mine_extra x))). exact (fold_extra_entries _ _ _ (A AExtra)).
  Qed.

  Lemma media_fun old l a b : media_list old l a -> media_list old l b -> a = b.
  Proof.
    intros H. revert b. induction H as [old|old n s r o Hs Hm IH|old n ss r o Nt Hs Hm IH]; intros b Hb.
    - inversion Hb. reflexivity.
    - inversion Hb as [|old' n' s' r' o' Hs' Hm'|old' n' ss' r' o' Nt' Hs' Hm']; subst.
      + apply IH. rewrite (denotes_string_fun _ _ _ Hs Hs'). exact Hm'.
      + destruct Hs. contradiction.
    - inversion Hb as [|old' n' s' r' o' Hs' Hm'|old' n' ss' r' o' Nt' Hs' Hm']; subst.
      + destruct Hs'. contradiction.
      + apply IH. rewrite (denotes_strings_fun _ _ _ Hs Hs'). exact Hm'.
  Qed.

  Lemma filled_fun {V} (R : node -> V -> Prop) l a b : (forall n x y, R n x -> R n y -> x = y) -> filled R l a -> filled R l b -> a = b.
  Proof.
    intros HR [k1 [H1 ->]] [k2 [H2 ->]]. f_equal. eapply Forall2_fun; [|exact H1|exact H2].
    intros x [y1 y2] [z1 z2] [A B] [C D]. cbn in *. f_equal; [eapply denotes_string_fun; eassumption|eapply HR; eassumption].
  Qed.

  Lemma describes_doc_fun n a b : describes_doc n a -> describes_doc n b -> a = b.
  Proof. intros H1 H2. apply doc_describes in H1, H2. congruence. Qed.

  Lemma extras_fun (l : list (node * node)) (a b : amap gkey gval) :
    (exists kvs, Forall2 (fun p kv => to_scalar (fst p) = Ok (fst kv) /\ snd kv = GNode (snd p)) l kvs /\ a = kputs kvs (mkMap [] false)) ->
    (exists kvs, Forall2 (fun p kv => to_scalar (fst p) = Ok (fst kv) /\ snd kv = GNode (snd p)) l kvs /\ b = kputs kvs (mkMap [] false)) -> a = b.
  Proof.
    intros [k1 [H1 ->]] [k2 [H2 ->]]. f_equal. eapply Forall2_fun; [|exact H1|exact H2].
    intros x [y1 y2] [z1 z2] [A B] [C D]. cbn in *. congruence.
  Qed.

  Lemma anns_fun (l : list (node * node)) (a b : amap string untyped) :
    (exists kvs, Forall2 ann_entry l kvs /\ a = mputs kvs (mkMap [] false)) ->
    (exists kvs, Forall2 ann_entry l kvs /\ b = mputs kvs (mkMap [] false)) -> a = b.
  Proof. intros [k1 [H1 ->]] [k2 [H2 ->]]. f_equal. eapply Forall2_fun; [apply ann_entry_fun|exact H1|exact H2]. Qed.

  Lemma api_document_fun l a b : api_document l a -> api_document l b -> a = b.
  Proof.
    intros (A1 & A2 & A3 & A4 & A5 & A6 & A7 & A8 & A9 & A10 & A11 & A12 & A13 & A14 & A15 & A16 & A17 & A18)
           (B1 & B2 & B3 & B4 & B5 & B6 & B7 & B8 & B9 & B10 & B11 & B12 & B13 & B14 & B15 & B16 & B17 & B18).
    assert (D1 : forall n a b, denotes_string n a -> denotes_string n b -> a = b) by (intros; eapply denotes_string_fun; eassumption).
    assert (D2 : forall n (a b : option string), (exists s, denotes_string n s /\ a = Some s) -> (exists s, denotes_string n s /\ b = Some s) -> a = b).
    { intros n x y [s [Hs ->]] [s' [Hs' ->]]. f_equal. eapply D1; eassumption. }
    assert (D3 : forall n (a b : option (list string)), (exists s, denotes_strings n s /\ a = Some s) -> (exists s, denotes_strings n s /\ b = Some s) -> a = b).
    { intros n x y [s [Hs ->]] [s' [Hs' ->]]. f_equal. eapply denotes_strings_fun; eassumption. }
    assert (D4 : forall n a b, as_is n a -> as_is n b -> a = b) by (unfold as_is; congruence).
    apply api_ext. intros f. destruct f; cbn [aget].
    all: try (eapply said_fun; [|eassumption|eassumption]; assumption).
    all: try (eapply filled_fun; [|eassumption|eassumption]; assumption).
    - eapply media_fun; eassumption.
    - destruct A8 as [d1 [X1 ->]], B8 as [d2 [X2 ->]]. rewrite (Forall2_fun _ _ _ _ describes_doc_fun X1 X2). reflexivity.
    - eapply anns_fun; eassumption.
    - eapply extras_fun; eassumption.
    - congruence.
    - eapply filled_fun; [|eassumption|eassumption]. cbv beta. congruence.
  Qed.
End ReadApi.

Section AcceptApi.
  Context {F : FloatIO}.

  Lemma amap_accept {V} (dec : node -> res V) m n :
    (exists v, read_amap dec m n = Ok v) <-> mapping_of (fun x => exists y, dec x = Ok y) n.
  Proof.
    split.
    - intros [v H]. apply read_amap_map in H as [t [l [kvs [-> [H _]]]]]. exists t, l. split; [reflexivity|].
      clear - H. induction H as [|e kv l kvs [A B] _ IH]; constructor; [|exact IH]. eauto.
    - intros [t [l [-> H]]]. assert (X : exists kvs, Forall2 (accepts dec) l kvs).
      { induction H as [|e l [[s A] [y B]] _ [kvs IH]]; [exists []; constructor|]. exists ((s, y) :: kvs). constructor; [split; assumption|exact IH]. }
      destruct X as [kvs X]. exists (mputs kvs m). apply read_amap_map. eauto 6.
  Qed.

  Lemma mapping_impl (P Q : node -> Prop) n : (forall x, P x -> Q x) -> mapping_of P n -> mapping_of Q n.
  Proof.
    intros H [t [l [-> X]]]. exists t, l. split; [reflexivity|]. eapply Forall_impl; [|exact X]. intros e [A B]. auto.
  Qed.

  Lemma untyped_accept m n : (exists v, read_untyped m n = Ok v) <-> mapping_of (fun _ => True) n.
  Proof.
    unfold read_untyped. rewrite (amap_accept as_gnode m n). split; apply mapping_impl; intros x; [auto|]. intros _. exists (GNode x). reflexivity.
  Qed.

  Lemma uses_accept m n : (exists v, read_strings m n = Ok v) <-> mapping_of (fun x => exists s, denotes_string x s) n.
  Proof.
    unfold read_strings. rewrite (amap_accept to_str m n).
    split; apply mapping_impl; intros x [s H]; exists s; apply to_str_iff; exact H.
  Qed.

  Lemma media_accept n old : (exists v, read_media n old = Ok v) <-> (exists s, denotes_string n s) \/ exists ss, denotes_strings n ss.
  Proof.
    split.
    - intros [v H]. apply read_media_iff in H as [[s [H _]]|[_ [ss [H _]]]]; eauto.
    - intros [[s H]|[ss H]].
      + eexists. apply read_media_iff. left. eauto.
      + destruct (is_string n) eqn:Es; [exists (Some (opt_list old ++ [value n])); apply read_media_iff; left; exists (value n)|].
        * split; [|reflexivity]. split; [|reflexivity]. unfold is_string in Es. destruct (node_tag n); congruence.
        * exists (Some ss). apply read_media_iff. right. split; [|eauto]. unfold is_string in Es. destruct (node_tag n); congruence.
  Qed.

  Lemma docs_accept n old : (exists v, read_docs n old = Ok v) <-> exists t ns, n = Seq t ns /\ Forall (fun n => exists d, describes_doc n d) ns.
  Proof.
    unfold read_docs, seq_fold. destruct n as [t0 v0|t ns|t0 l0].
    1,3: split; [intros [v H]; discriminate H|intros [t' [ns' [E _]]]; discriminate E].
    split.
    - intros [v H]. apply read_docs_fold in H as [ds [H _]]. exists t, ns. split; [reflexivity|].
      clear - H. induction H; constructor; eauto.
    - intros [t' [ns' [E H]]]. injection E as <- <-. assert (X : exists ds, Forall2 describes_doc ns ds).
      { clear - H. induction H as [|n l [d Hd] _ [ds IH]]; [exists []; constructor|]. exists (d :: ds). constructor; assumption. }
      destruct X as [ds X]. eexists. apply read_docs_fold. eauto.
  Qed.

  Definition api_wants (f : afield) (p : node * node) : Prop :=
    match f with
    | ATitle | AVersion | ABaseURI | ADescription => exists s, denotes_string (snd p) s
    | AProtocols | ASecuredBy => exists ss, denotes_strings (snd p) ss
    | AMediaType => (exists s, denotes_string (snd p) s) \/ exists ss, denotes_strings (snd p) ss
    | ADocumentation => exists t ns, snd p = Seq t ns /\ Forall (fun n => exists d, describes_doc n d) ns
    | AUses => mapping_of (fun n => exists s, denotes_string n s) (snd p)
    | ASecuritySchemes | ABaseURIParameters | ATraits | AAnnotationTypes | AResourceTypes => mapping_of (fun _ => True) (snd p)
    | ATypes => mapping_of (fun n => exists d, hat n = Ok d) (snd p)
    | AAnnotations => exists a, read_annotation (snd p) = Ok a
    | AResources => True
    | AExtra => exists k, to_scalar (fst p) = Ok k
    end.

  Lemma api_step_wants f v p : (exists w, api_step f v p = Ok w) <-> api_wants f p.
  Proof.
    destruct f; cbn [api_step api_wants].
    all: try apply untyped_accept.
    all: try apply uses_accept.
    all: try apply media_accept.
    all: try apply docs_accept.
    all: try apply (amap_accept hat).
    all: try (split; [intros [w H]; apply string_ptr_step in H as [s [H _]]; eauto|intros [s H]; exists (Some s); apply string_ptr_step; eauto]).
    all: try (split; [intros [w H]; apply string_list_step in H as [s [H _]]; eauto|intros [s H]; exists (Some s); apply string_list_step; eauto]).
    - split; [intros [w H]; apply string_step in H; eauto|intros [s H]; exists s; apply string_step; exact H].
    - split; [intros [w H]; apply bind_ok in H as [a [H _]]; eauto|intros [a H]; rewrite H; cbn; eauto].
    - split; [intros [w H]; apply bind_ok in H as [a [H _]]; eauto|intros [a H]; rewrite H; cbn; eauto].
    - split; [intros _; exact I|eauto].
  Qed.

  Lemma api_acceptable_wants p : api_acceptable p <-> match api_target p with Some f => api_wants f p | None => False end.
  Proof.
    unfold api_acceptable, api_target, is_types_key, api_extra_key, named_key, is_annotation_key, is_resource_key.
    assert (Z : denotes_string (fst p) "" <-> is_string (fst p) = true /\ value (fst p) = "").
    { unfold denotes_string, is_string. destruct (node_tag (fst p)); intuition congruence. }
    rewrite Z. clear Z. destruct (is_string (fst p)).
    2:{ cbn. intuition congruence. }
    cbn [andb]. destruct (value (fst p)) as [|c r] eqn:Ev; [intuition congruence|].
    destruct (Ascii.eqb_spec c "(") as [->|N1]; [cbn; intuition congruence|].
    destruct (Ascii.eqb_spec c "/") as [->|N2]; [cbn; intuition congruence|].
    assert (Nv : String c r <> "") by discriminate. revert Nv. generalize (String c r) as v. intros v Nv.
    unfold api_names, api_keys. cbn [existsb look].
    repeat match goal with |- context [String.eqb v ?k] => destruct (String.eqb_spec v k) as [->|]; [cbn; intuition congruence|] end.
    cbn. intuition congruence.
  Qed.

  Lemma api_accept l a : (exists a', fold_res api_assign a l = Ok a') <-> Forall api_acceptable l.
  Proof.
    apply (parts_accept aty aget aset api_target api_step api_assign api_assign_step).
    - intros e f v T. rewrite (api_acceptable_wants e), T. apply api_step_wants.
    - intros e T. rewrite (api_acceptable_wants e), T. tauto.
  Qed.

  Lemma api_read_iff t l a : api_unmarshal (Map t l) new_api = Ok a <-> Forall api_acceptable l /\ api_document l a.
  Proof.
    unfold api_unmarshal, map_fold. split.
    - intros H. split; [apply (api_accept l new_api); eauto|apply api_reads; exact H].
    - intros [H1 H2]. apply (api_accept l new_api) in H1 as [a' H1]. rewrite H1. f_equal. eapply api_document_fun; [apply api_reads; exact H1|exact H2].
  Qed.
End AcceptApi.
