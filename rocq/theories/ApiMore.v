(** Proofs about panics (C29), writability (C30) and synonyms (C51) of API documents and libraries. *)
From Coq Require Import SpecFloat.
From Verif Require Import Base Num OMap OMapSpec Keys Yaml Values Assign Formats Meta Out Xml Example DataType Marshal Doc Api Library
  AssignProofs TypeFacts Fields FieldProofs FacetSpec FacetProofs DocProofs OrderProofs PathProofs Lens Segs ExProofs WriteProofs ReadInv Same ExRound TypeSegs WriteSpec
  RoundSpec RoundProofs WasRead Writable Crash Parts ApiFields ApiSpec ApiProofs LibProofs ApiWrite ApiRoundSpec ApiRound LibRound.

(** ** Panics *)

Section Panics.
  Context {F : FloatIO}.

  Lemma doc_assign_no_panic d e : doc_assign d e <> Panic.
  Proof.
    unfold doc_assign. destruct (String.eqb (value (fst e)) "title"); [discriminate|]. destruct (String.eqb (value (fst e)) "content"); [discriminate|].
    intros H. apply bind_panic in H as [H|[k [_ H]]]; [exact (to_scalar_not_panic _ H)|discriminate H].
  Qed.

  Lemma fold_no_panic {A S} (f : S -> A -> res S) l : (forall s a, f s a <> Panic) -> forall s, fold_res f s l <> Panic.
  Proof.
    intros H. induction l as [|a l IH]; intros s; [discriminate|]. cbn. intros E. apply bind_panic in E as [E|[s' [_ E]]]; [exact (H _ _ E)|exact (IH _ E)].
  Qed.

  Lemma doc_no_panic n d : doc_unmarshal n d <> Panic.
  Proof. unfold doc_unmarshal, map_fold. destruct n; try discriminate. apply fold_no_panic. exact doc_assign_no_panic. Qed.

  Lemma to_str_no_panic n : to_str n <> Panic.
  Proof. unfold to_str. destruct (is_string n); discriminate. Qed.

  Lemma amap_no_panic {V} (dec : node -> res V) m n : (forall x, dec x <> Panic) -> read_amap dec m n <> Panic.
  Proof. intros H E. apply read_amap_panic in E as [a [_ E]]. exact (H _ E). Qed.

  Lemma string_not_panic n o : run_assign (as_string n o) <> Panic.
  Proof.
    pose proof (helpers_all_or_nothing F) as (_ & _ & H & _). destruct (H n o) as [[x [_ ->]]|[_ ->]]; discriminate.
  Qed.
  Lemma string_ptr_not_panic n o : run_assign (as_string_ptr n o) <> Panic.
  Proof.
    pose proof (helpers_all_or_nothing F) as (_ & _ & _ & H & _). destruct (H n o) as [[x [_ ->]]|[_ ->]]; discriminate.
  Qed.

  Definition bad_type (n : node) : Prop := exists e, In e (pairs_of n) /\ crash (snd e).

  Lemma types_panic m n : read_types m n = Panic -> bad_type n.
  Proof.
    intros H. apply read_amap_panic in H as [a [Ha H]]. apply hat_crash in H. destruct Ha as [t [l [k [-> Hi]]]].
    exists (k, a). split; [exact Hi|exact H].
  Qed.

  Lemma api_panic n a : api_unmarshal n a = Panic ->
    exists t l p, n = Map t l /\ In p l /\ (denotes_string (fst p) "" \/ is_types_key p = true /\ bad_type (snd p)).
  Proof.
    unfold api_unmarshal, map_fold. destruct n as [| |t l]; try discriminate. intros H.
    apply (parts_panic aty aget aset api_target api_step api_assign api_assign_step) in H as [p [Hi H]]. exists t, l, p. split; [reflexivity|].
    split; [exact Hi|]. destruct H as [H|[f [v [T H]]]].
    - left. unfold api_target in H. unfold denotes_string, is_string in *. destruct (node_tag (fst p)); try discriminate H. split; [reflexivity|].
      destruct (value (fst p)) as [|c r]; [reflexivity|]. destruct (Ascii.eqb c "("); [discriminate H|]. destruct (Ascii.eqb c "/"); [discriminate H|].
      destruct (look (String c r) api_keys); discriminate H.
    - assert (Q : f = ATypes).
      { destruct f; cbn [api_step] in H; try reflexivity; exfalso; revert H.
        all: try apply string_not_panic.
        all: try apply string_ptr_not_panic.
        all: try apply string_list_not_panic.
        all: try (apply amap_no_panic; intros x; discriminate).
        - unfold read_media. destruct (is_string (snd p)); [discriminate|]. apply string_list_not_panic.
        - unfold read_docs, seq_fold. destruct (snd p); try discriminate. apply fold_no_panic. intros s x E. unfold read_doc in E.
          apply bind_panic in E as [E|[d [_ E]]]; [exact (doc_no_panic _ _ E)|discriminate E].
        - apply amap_no_panic. exact to_str_no_panic.
        - intros E. apply bind_panic in E as [E|[k [_ E]]]; [exact (annotation_not_panic _ E)|discriminate E].
        - intros E. apply bind_panic in E as [E|[k [_ E]]]; [exact (to_scalar_not_panic _ E)|discriminate E].
        - discriminate. }
      subst f. right. split; [rewrite <- api_mine_types; unfold api_mine; apply mine_target; exact T|]. exact (types_panic _ _ H).
  Qed.

  Lemma lib_panic n a : lib_unmarshal n a = Panic ->
    exists t l p, n = Map t l /\ In p l /\ (denotes_string (fst p) "" \/ lib_types_key p = true /\ bad_type (snd p)).
  Proof.
    unfold lib_unmarshal, map_fold. destruct n as [| |t l]; try discriminate. intros H.
    apply (parts_panic lty lget lset lib_target lib_step lib_assign lib_assign_step) in H as [p [Hi H]]. exists t, l, p. split; [reflexivity|].
    split; [exact Hi|]. destruct H as [H|[f [v [T H]]]].
    - left. unfold lib_target in H. unfold denotes_string, is_string in *. destruct (look (value (fst p)) lib_keys); [discriminate H|].
      destruct (node_tag (fst p)); try discriminate H. split; [reflexivity|].
      destruct (value (fst p)) as [|c r]; [reflexivity|]. destruct (Ascii.eqb c "("); discriminate H.
    - assert (Q : f = LTypes).
      { destruct f; cbn [lib_step] in H; try reflexivity; exfalso; revert H.
        all: try (apply amap_no_panic; intros x; discriminate).
        - apply string_ptr_not_panic.
        - apply amap_no_panic. exact to_str_no_panic.
        - destruct (String.eqb (value (fst p)) "annotationTypes"); [apply amap_no_panic; exact annotation_not_panic|].
          intros E. apply bind_panic in E as [E|[k [_ E]]]; [exact (annotation_not_panic _ E)|discriminate E].
        - intros E. apply bind_panic in E as [E|[k [_ E]]]; [exact (to_scalar_not_panic _ E)|discriminate E]. }
      subst f. right. split; [rewrite <- lib_mine_types; unfold lib_mine; apply mine_target; exact T|]. exact (types_panic _ _ H).
  Qed.
End Panics.

(** ** What was read can be written *)

Section Writes.
  Context {F : FloatIO}.

  Lemma section_writes {V} (dec : node -> res V) (vn : V -> res node) L (m : amap string V) :
    (forall n v, dec n = Ok v -> exists n', vn v = Ok n') -> (exists kvs, Forall2 (accepts dec) L kvs /\ m = mputs kvs (mkMap [] false)) ->
    exists n, map_to_yaml skey_node vn m = Ok n.
  Proof.
    intros H [kvs [Hk ->]]. apply write_total. intros k v Hi. split; [eexists; reflexivity|]. apply mputs_in in Hi as [Hi|[]].
    apply (Forall2_in_r _ _ _ _ Hk) in Hi as [e [_ [_ E]]]. eapply H. exact E.
  Qed.

  Lemma untyped_writes L (m : untyped) : (exists kvs, Forall2 (accepts as_gnode) L kvs /\ m = mputs kvs (mkMap [] false)) -> exists n, untyped_to_yaml m = Ok n.
  Proof. apply section_writes. intros n v E. injection E as <-. exists n. reflexivity. Qed.

  Lemma uses_writes L (m : amap string string) : (exists kvs, Forall2 (accepts to_str) L kvs /\ m = mputs kvs (mkMap [] false)) -> exists n, string_map_node m = Ok n.
  Proof. apply section_writes. intros n v _. eexists. reflexivity. Qed.

  Lemma types_writes L (m : amap string dtype) : (exists kvs, Forall2 (accepts hat) L kvs /\ m = mputs kvs (mkMap [] false)) -> exists n, types_to_yaml to_yaml m = Ok n.
  Proof. apply section_writes. exact read_writes. Qed.

  Lemma anns_write (m : amap string untyped) : (forall s a, In (s, a) (ents m) -> ann_read a) -> Forall writes (all_seg KStr untyped_to_yaml (ents m)).
  Proof.
    intros H. apply Forall_forall. intros e He. apply in_map_iff in He as [[s a] [<- Hi]]. split; [eexists; reflexivity|].
    apply ann_writes. exact (H s a Hi).
  Qed.

  Lemma extras_write (m : amap gkey gval) : (forall k v, In (k, v) (ents m) -> (exists n, to_scalar n = Ok k) /\ is_node v) ->
    Forall writes (all_seg (fun k => k) to_node (ents m)).
  Proof.
    intros H. apply Forall_forall. intros e He. apply in_map_iff in He as [[k v] [<- Hi]]. destruct (H k v Hi) as [[n Hn] [x ->]].
    split; [eapply key_writes; exact Hn|exists x; reflexivity].
  Qed.

  Lemma docs_total ds : exists n, docs_node ds = Ok n.
  Proof.
    unfold docs_node. assert (X : exists ns, map_res doc_node ds = Ok ns).
    { induction ds as [|d ds [ns IH]]; [eexists; reflexivity|]. cbn. cbn in IH. rewrite IH. eexists. reflexivity. }
    destruct X as [ns ->]. eexists. reflexivity.
  Qed.

  Lemma all_segs_write {P} (seg : P -> outm) order : (forall p, Forall writes (seg p)) -> Forall writes (flat_map seg order).
  Proof. intros H. induction order as [|p o IH]; [constructor|]. cbn [flat_map]. apply Forall_app. split; [apply H|exact IH]. Qed.

  Lemma str_opt_writes k o : Forall writes (opt_seg k (str_opt o)).
  Proof. apply opt_writes. destruct o; intros x E; [injection E as <-; eexists; reflexivity|discriminate]. Qed.
  Lemma strs_opt_writes k o : Forall writes (opt_seg k (option_map strings_node o)).
  Proof. apply opt_writes. destruct o; intros x E; [injection E as <-; eexists; reflexivity|discriminate]. Qed.

  Lemma fold_inv {A S} (f : S -> A -> res S) (P : S -> Prop) l : (forall s a s', In a l -> P s -> f s a = Ok s' -> P s') ->
    forall s s', P s -> fold_res f s l = Ok s' -> P s'.
  Proof.
    induction l as [|a l IH]; intros H s s' Hp E; [injection E as <-; exact Hp|]. cbn in E. apply bind_ok in E as [s1 [E1 E]].
    eapply IH; [intros x y z Hi; apply H; right; exact Hi| |exact E]. eapply H; [left; reflexivity|exact Hp|exact E1].
  Qed.

  Lemma extra_step_inv l (m m' : amap gkey gval) : fold_res (fun old e => do k <- to_scalar (fst e); Ok (kput k (GNode (snd e)) old)) m l = Ok m' ->
    ents m = [] -> forall k v, In (k, v) (ents m') -> (exists n, to_scalar n = Ok k) /\ is_node v.
  Proof.
    intros H E. refine (fold_inv _ (fun m => forall k v, In (k, v) (ents m) -> (exists n, to_scalar n = Ok k) /\ is_node v) _ _ _ _ _ H).
    - intros s e s' _ Hs Q. apply bind_ok in Q as [k [Q1 Q2]]. injection Q2 as <-. intros k' v' Hi. apply kput_in in Hi as [Hi|Hi]; [|eauto].
      injection Hi as -> ->. split; [eauto|eexists; reflexivity].
    - rewrite E. intros k v [].
  Qed.

  Lemma api_read_writes n a : api_unmarshal n new_api = Ok a -> exists n', api_marshal a = Ok n'.
  Proof.
    intros H. destruct n as [| |t l]; try discriminate H. pose proof (api_fold l new_api a H) as A.
    unfold api_marshal. rewrite api_out_segs. apply out_writes, puts_writes; [|constructor]. apply all_segs_write. intros f. pose proof (A f) as B.
    destruct f; cbn [api_seg].
    all: try apply str_opt_writes.
    all: try apply strs_opt_writes.
    all: try (apply if_writes; eapply untyped_writes; exact (fold_amap as_gnode _ _ _ B)).
    - constructor; [|constructor]. split; eexists; reflexivity.
    - apply opt_writes. destruct (a_documentation a); intros x E; [injection E as <-; apply docs_total|discriminate].
    - apply if_writes. eapply uses_writes. exact (fold_amap to_str _ _ _ B).
    - apply anns_write. refine (fold_inv _ (fun m => forall s x, In (s, x) (ents m) -> ann_read x) _ _ _ _ _ B); [|intros s x []].
      intros s e s' _ Hs Q. apply bind_ok in Q as [m [Q1 Q2]]. injection Q2 as <-. intros k v Hi. apply mput_in in Hi as [Hi|Hi]; [|eauto].
      injection Hi as -> ->. eapply annotation_read. exact Q1.
    - apply extras_write. exact (extra_step_inv _ _ _ B eq_refl).
    - apply Forall_forall. intros e He. apply in_map_iff in He as [[s v] [<- Hi]]. split; [eexists; reflexivity|].
      apply fold_resources in B. cbn [aget] in B. rewrite B in Hi. apply mputs_in in Hi as [Hi|[]].
      apply in_map_iff in Hi as [p [E _]]. injection E as <- <-. eexists. reflexivity.
    - apply if_writes. eapply types_writes. exact (fold_amap hat _ _ _ B).
  Qed.

  Lemma lib_read_writes n a : lib_unmarshal n new_library = Ok a -> exists n', lib_marshal a = Ok n'.
  Proof.
    intros H. destruct n as [| |t l]; try discriminate H. pose proof (lib_fold l new_library a H) as A.
    unfold lib_marshal. rewrite lib_out_segs. apply out_writes, puts_writes; [|constructor]. apply all_segs_write. intros f. pose proof (A f) as B.
    destruct f; cbn [lib_seg].
    all: try (apply if_writes; eapply untyped_writes; exact (fold_amap as_gnode _ _ _ B)).
    - apply str_opt_writes.
    - apply if_writes. eapply uses_writes. exact (fold_amap to_str _ _ _ B).
    - apply anns_write. refine (fold_inv _ (fun m => forall s x, In (s, x) (ents m) -> ann_read x) _ _ _ _ _ B); [|intros s x []].
      intros s e s' _ Hs Q. cbn [lib_step] in Q. destruct (String.eqb (value (fst e)) "annotationTypes").
      + apply read_amap_map in Q as [t' [l' [kvs [_ [Hk ->]]]]]. intros k v Hi. apply mputs_in in Hi as [Hi|Hi]; [|eauto].
        apply (Forall2_in_r _ _ _ _ Hk) in Hi as [x [_ [_ E]]]. eapply annotation_read. exact E.
      + apply bind_ok in Q as [m [Q1 Q2]]. injection Q2 as <-. intros k v Hi. apply mput_in in Hi as [Hi|Hi]; [|eauto].
        injection Hi as -> ->. eapply annotation_read. exact Q1.
    - apply extras_write. exact (extra_step_inv _ _ _ B eq_refl).
    - apply if_writes. eapply types_writes. exact (fold_amap hat _ _ _ B).
  Qed.
End Writes.

(** ** Synonyms *)

(** The same pairs, but for `types` and `schemas`. *)
Definition synonym (p q : node * node) : Prop :=
  snd p = snd q /\ (fst p = fst q \/ is_string (fst p) = true /\ is_string (fst q) = true /\ In (value (fst p)) ["types"; "schemas"] /\ In (value (fst q)) ["types"; "schemas"]).

Section Synonyms.
  Context {F : FloatIO}.

  Lemma api_synonyms t l l' a : Forall2 synonym l l' -> api_unmarshal (Map t l) a = api_unmarshal (Map t l') a.
  Proof.
    unfold api_unmarshal, map_fold. intros H. revert a. induction H as [|p q l l' H _ IH]; intros a; [reflexivity|]. cbn [fold_res].
    assert (E : api_assign a p = api_assign a q).
    { destruct p as [k v], q as [k' v'], H as [Hv H]. cbn [fst snd] in *. subst v'. destruct H as [->|[S1 [S2 [H1 H2]]]]; [reflexivity|].
      unfold api_assign. cbn [fst snd]. rewrite S1, S2. destruct H1 as [<-|[<-|[]]], H2 as [<-|[<-|[]]]; reflexivity. }
    rewrite E. destruct (api_assign a q); [apply IH|reflexivity|reflexivity].
  Qed.

  Lemma lib_synonyms t l l' a : Forall2 synonym l l' -> lib_unmarshal (Map t l) a = lib_unmarshal (Map t l') a.
  Proof.
    unfold lib_unmarshal, map_fold. intros H. revert a. induction H as [|p q l l' H _ IH]; intros a; [reflexivity|]. cbn [fold_res].
    assert (E : lib_assign a p = lib_assign a q).
    { destruct p as [k v], q as [k' v'], H as [Hv H]. cbn [fst snd] in *. subst v'. destruct H as [->|[S1 [S2 [H1 H2]]]]; [reflexivity|].
      unfold lib_assign. cbn [fst snd]. destruct H1 as [<-|[<-|[]]], H2 as [<-|[<-|[]]]; reflexivity. }
    rewrite E. destruct (lib_assign a q); [apply IH|reflexivity|reflexivity].
  Qed.
End Synonyms.
