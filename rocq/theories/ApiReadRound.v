(** Documentation entries through their own functions (C43), the order in which resources and extra facets are read (C48), and reading again what was
    read and written (C50). *)
From Coq Require Import SpecFloat Permutation.
From Verif Require Import Base Num OMap OMapSpec Keys Yaml Values Assign Formats Meta Out Xml Example DataType Marshal Doc Api Library
  AssignProofs TypeFacts Fields FieldProofs FacetSpec FacetProofs DocProofs OrderProofs PathProofs Lens Segs ExProofs WriteProofs ReadInv Same ExRound TypeSegs WriteSpec
  RoundSpec RoundProofs WasRead Writable Stable Crash Parts ApiFields ApiSpec ApiProofs LibProofs ApiWrite ApiRoundSpec ApiRound ApiOrder.

Lemma Forall2_in_l {A B} (P : A -> B -> Prop) l l' x : Forall2 P l l' -> In x l -> exists y, In y l' /\ P x y.
Proof.
  intros H. induction H as [|a b l l' Hx _ IH]; [intros []|]. intros [<-|Hi]; [exists b; split; [left; reflexivity|exact Hx]|].
  destruct (IH Hi) as [y [H1 H2]]. exists y. split; [right; exact H1|exact H2].
Qed.

(** ** C43 *)

(** The same answers from every getter of a documentation entry. *)
Definition same_doc {F : FloatIO} (d e : doc) : Prop :=
  doc_title d = doc_title e /\ doc_content d = doc_content e /\ same_map same_value (doc_extra d) (doc_extra e).

(** The extra facets have distinct keys that can be written and read, none with the text of a known key, and values that can be written. *)
Definition doc_returns {F : FloatIO} (d : doc) : Prop :=
  apart (map fst (ents (doc_extra d))) = true /\
  Forall (fun e => key_returns (fst e) /\ has_node (snd e) /\ forall n, key_node (fst e) = Ok n -> ~ In (value n) ["title"; "content"]) (ents (doc_extra d)).

Section DocRound.
  Context {F : FloatIO}.

  Lemma doc_round d : doc_returns d ->
    exists n d', out_to_yaml (doc_marshal d []) = Ok n /\ doc_unmarshal n new_doc = Ok d' /\ same_doc d d'.
  Proof.
    intros [Ha H].
    assert (H' : Forall (fun e => key_returns (fst e) /\ has_node (snd e)) (ents (doc_extra d))) by (eapply Forall_impl; [|exact H]; cbn; tauto).
    destruct (extras_back false (ents (doc_extra d)) Ha H') as [l [kvs [A [B [C D]]]]].
    pose (m := [(str_node "title", str_node (doc_title d)); (str_node "content", str_node (doc_content d))] ++ l).
    assert (E : doc_marshal d [] = puts_all ([(KStr "title", Ok (str_node (doc_title d))); (KStr "content", Ok (str_node (doc_content d)))] ++
                  all_seg (fun k => k) to_node (ents (doc_extra d))) []).
    { unfold doc_marshal. rewrite oput_all_puts, puts_all_app. reflexivity. }
    assert (K : map fst (all_seg (fun k => k) to_node (ents (doc_extra d))) = map fst (ents (doc_extra d))).
    { unfold all_seg. rewrite map_map. reflexivity. }
    assert (N : forall k, In k (map fst (ents (doc_extra d))) -> k <> KStr "title" /\ k <> KStr "content").
    { intros k Hk. apply in_map_iff in Hk as [e [<- He]]. rewrite Forall_forall in H. destruct (H e He) as [_ [_ X]].
      split; intros Ek; rewrite Ek in X; apply (X _ eq_refl); cbn; tauto. }
    exists (Map TMap m), (mkDoc (doc_title d) (doc_content d) (mkMap kvs false)). split; [|split].
    - rewrite E, puts_fresh_nil.
      + apply out_to_yaml_ok. exists m. split; [reflexivity|]. unfold m. apply Forall2_app; [|exact A].
        constructor; [split; reflexivity|]. constructor; [split; reflexivity|constructor].
      + rewrite map_app, K. apply apart_app. split; [reflexivity|]. split; [exact Ha|]. intros a b Hin Hb. destruct (N b Hb) as [N1 N2].
        destruct Hin as [<-|[<-|[]]]; cbn [fst]; destruct b as [|x|s|x|x|x]; try reflexivity; apply gkey_str_neq; congruence.
    - unfold doc_unmarshal, map_fold, m. cbn [app fold_res].
      assert (G : forall x0 x1, fold_res (fun m p => do k <- to_scalar (fst p); Ok (kput k (GNode (snd p)) m)) x0 l = Ok x1 ->
                  forall s t, fold_res doc_assign (mkDoc s t x0) l = Ok (mkDoc s t x1)).
      { assert (Q : forall p, In p l -> ~ In (value (fst p)) ["title"; "content"]).
        { intros p Hp. destruct (B p Hp) as [k [K1 [_ Hk]]]. apply in_map_iff in Hk as [e [Ee He]]. rewrite Forall_forall in H. destruct (H e He) as [_ [_ X]].
          apply X. rewrite Ee. exact K1. }
        clear - Q. induction l as [|p l IH]; intros x0 x1 H s t; cbn [fold_res] in *; [injection H as <-; reflexivity|].
        apply bind_ok in H as [x [Hx H]]. apply bind_ok in Hx as [k [Hk Hx]]. injection Hx as <-. unfold doc_assign at 1.
        assert (Qp := Q p (or_introl eq_refl)).
        destruct (String.eqb_spec (value (fst p)) "title") as [e|_]; [rewrite e in Qp; cbn in Qp; tauto|].
        destruct (String.eqb_spec (value (fst p)) "content") as [e|_]; [rewrite e in Qp; cbn in Qp; tauto|].
        rewrite Hk. cbn [bind]. cbn [doc_title doc_content doc_extra]. apply IH; [intros q Hq; apply Q; right; exact Hq|exact H]. }
      exact (G _ _ C (doc_title d) (doc_content d)).
    - split; [reflexivity|]. split; [reflexivity|]. cbn [doc_extra]. exact D.
  Qed.
End DocRound.

(** ** C48 *)

Section ReadOrder.
  Context {F : FloatIO}.

  Lemma api_in_order t l a : no_key_twice l -> api_unmarshal (Map t l) new_api = Ok a ->
    ents (a_resources a) = map (fun p => (value (fst p), GNode (snd p))) (filter (fun p => is_resource_key (fst p)) l) /\
    Forall2 ann_entry (filter (fun p => is_annotation_key (fst p)) l) (ents (a_annotations a)) /\
    Forall2 (fun p kv => to_scalar (fst p) = Ok (fst kv) /\ snd kv = GNode (snd p)) (filter api_extra_key l) (ents (a_extra a)).
  Proof.
    intros N H. apply api_read_iff in H as [_ H]. destruct H as (_ & _ & _ & _ & _ & _ & _ & _ & _ & _ & _ & _ & _ & _ & _ & A & R & X).
    destruct A as [ka [A1 A2]], X as [ke [X1 X2]]. rewrite R, A2, X2. rewrite !mputs_fresh, kputs_fresh; cbn [app ents]; auto.
    - apply (pairs_apart _ _ (fun n v => v = GNode n) X1). apply pairs_filter. exact N.
    - rewrite (ann_keys _ _ A1). apply pairs_nodup; [exact N|]. intros p Hp. exact (prefix_scalar "(" p Hp).
    - rewrite map_map. cbn [fst]. apply (pairs_nodup _ _ N). intros p Hp. exact (prefix_scalar "/" p Hp).
  Qed.
End ReadOrder.

(** ** C50 *)

Section ReadRound.
  Context {F : FloatIO}.

  Lemma filled_returns {V} (R : node -> V -> Prop) (P : V -> Prop) l m : filled R l m -> (forall n v, R n v -> P v) -> section_returns P m.
  Proof.
    intros [kvs [H ->]] HP. split; [|split].
    - intros _. assert (G : forall m : amap string V, oord (mputs kvs m) = oord m) by (clear; induction kvs as [|[k v] r IH]; intros m; [reflexivity|]; exact (IH (mput k v m))).
      rewrite G. reflexivity.
    - apply mputs_nodup. constructor.
    - apply Forall_forall. intros e He. apply mputs_in in He as [He|[]]. destruct (Forall2_in_r _ _ _ _ H He) as [x [_ [_ Hx]]]. eapply HP. exact Hx.
  Qed.

  Lemma read_section_returns {V} (P : V -> Prop) l m (R : node -> V -> Prop) : filled R l m -> Forall (fun e => P (snd e)) (ents m) -> section_returns P m.
  Proof.
    intros H HP. destruct (filled_returns R (fun _ => True) l m H (fun _ _ _ => I)) as [A [B _]]. split; [exact A|]. split; [exact B|exact HP].
  Qed.

  Lemma filled_came {V} (R : node -> V -> Prop) l m : filled R l m -> Forall (fun e => exists n, R n (snd e)) (ents m).
  Proof.
    intros [kvs [H ->]]. apply Forall_forall. intros e He. apply mputs_in in He as [He|[]].
    destruct (Forall2_in_r _ _ _ _ H He) as [x [_ [_ Hx]]]. eauto.
  Qed.

  Lemma api_read_returns l a : api_document l a -> Forall (fun p => is_string (fst p) = true) l -> Forall (fun p => is_annotation_key (fst p) = false) l ->
    Forall (fun p => named_key "documentation" p = false) l -> Forall (fun e => settled (snd e)) (ents (a_types a)) -> api_returns a.
  Proof.
    intros H Hs Ha Hd Ht. split; [exact (api_read_tidy l a H)|].
    destruct H as (A1 & A2 & A3 & A4 & A5 & A6 & A7 & A8 & A9 & A10 & A11 & A12 & A13 & A14 & A15 & A16 & A17 & A18).
    assert (As : forall n v, as_is n v -> has_node v) by (intros n v ->; exists n; reflexivity).
    split; [|split; [exact (filled_returns _ _ _ _ A9 (fun _ _ _ => I))|]].
    { destruct A8 as [ds [D1 D2]]. assert (E : items_under "documentation" l = []).
      { unfold items_under, sections. replace (filter (named_key "documentation") l) with (@nil (node * node)); [reflexivity|].
        clear - Hd. induction Hd as [|p l H _ IH]; [reflexivity|]. cbn [filter]. rewrite H. exact IH. }
      rewrite E in D1. inversion D1; subst. rewrite D2. constructor. }
    do 5 (split; [eapply filled_returns; [eassumption|exact As]|]).
    split; [|split; [|split]].
    - apply (read_section_returns _ _ _ _ A15). apply filled_came in A15. rewrite Forall_forall in *. intros e He. destruct (A15 e He) as [n Hn].
      eapply settled_returns; [exact (Ht e He)|exact Hn].
    - destruct A16 as [kvs [B E]]. assert (E0 : filter (fun p => is_annotation_key (fst p)) l = []).
      { clear - Ha. induction Ha as [|p l H _ IH]; [reflexivity|]. cbn [filter]. rewrite H. exact IH. }
      rewrite E0 in B. inversion B; subst. rewrite E. constructor.
    - rewrite A17. apply Forall_forall. intros e He. apply mputs_in in He as [He|[]]. apply in_map_iff in He as [p [<- Hp]]. apply filter_In in Hp as [_ Hp].
      cbn [fst snd]. split; [|exists (snd p); reflexivity]. unfold is_resource_key in Hp. apply andb_true_iff in Hp as [_ Hp]. exact Hp.
    - destruct A18 as [kvs [B E]]. unfold extras_return. rewrite E. apply Forall_forall. intros e He. apply kputs_in in He as [He|[]].
      destruct (Forall2_in_r _ _ _ _ B He) as [p [Hp [K1 K2]]]. apply filter_In in Hp as [Hp Hx]. rewrite Forall_forall in Hs. specialize (Hs p Hp).
      unfold api_extra_key in Hx. rewrite Hs in Hx. cbn [andb] in Hx. apply negb_true_iff in Hx. apply orb_false_iff in Hx as [Hx Hx3]. apply orb_false_iff in Hx as [Hx1 Hx2].
      assert (K : fst e = KStr (value (fst p))).
      { destruct p as [[t v|t v|t v] x]; cbn in *; try discriminate Hx3; destruct t; try discriminate Hs; injection K1 as <-; reflexivity. }
      split; [|split].
      + rewrite K. exists (str_node (value (fst p))). split; reflexivity.
      + rewrite K2. exists (snd p). reflexivity.
      + intros s Es. rewrite K in Es. injection Es as <-. intros [Q|[Q|[Q|Q]]].
        * rewrite Q in Hx3. discriminate Hx3.
        * unfold is_annotation_key in Hx1. rewrite Hs in Hx1. cbn [andb] in Hx1. unfold starts_paren in Q. congruence.
        * unfold is_resource_key in Hx2. rewrite Hs in Hx2. cbn [andb] in Hx2. unfold starts_slash in Q. congruence.
        * assert (X : existsb (String.eqb (value (fst p))) ("" :: api_names) = true) by (apply existsb_exists; eexists; split; [right; exact Q|apply String.eqb_refl]). congruence.
  Qed.

  Lemma api_read_round t l a : api_unmarshal (Map t l) new_api = Ok a ->
    Forall (fun p => is_string (fst p) = true /\ is_annotation_key (fst p) = false /\ named_key "documentation" p = false) l ->
    Forall (fun e => settled (snd e)) (ents (a_types a)) ->
    exists n a', api_marshal a = Ok n /\ api_unmarshal n new_api = Ok a' /\ same_api a a'.
  Proof.
    intros H Hl Ht. apply api_read_iff in H as [_ H]. apply api_round_trip. apply (api_read_returns l a H); try assumption.
    all: eapply Forall_impl; [|exact Hl]; cbn; tauto.
  Qed.
End ReadRound.
