(** Proofs about writing API documents. *)
From Coq Require Import SpecFloat.
From Verif Require Import Base Num OMap OMapSpec Keys Yaml Values Assign Formats Meta Out Xml Example DataType Marshal Doc Api Library
  AssignProofs TypeFacts Fields FieldProofs FacetSpec FacetProofs DocProofs OrderProofs PathProofs Lens Segs ExProofs WriteProofs ReadInv Same ExRound TypeSegs WriteSpec RoundSpec WasRead Writable Parts ApiFields ApiSpec ApiProofs.

Section WriteApi.
  Context {F : FloatIO}.

  (** What is put for a field. *)
  Definition api_seg (a : api) (f : afield) : outm :=
    match f with
    | ATitle => [(KStr "title", Ok (str_node (a_title a)))]
    | AVersion => opt_seg "version" (str_opt (a_version a))
    | ABaseURI => opt_seg "baseUri" (str_opt (a_baseURI a))
    | ADescription => opt_seg "description" (str_opt (a_description a))
    | AProtocols => opt_seg "protocols" (option_map strings_node (a_protocols a))
    | AMediaType => opt_seg "mediaType" (option_map strings_node (a_mediaType a))
    | ADocumentation => opt_seg "documentation" (option_map docs_node (a_documentation a))
    | ASecuredBy => opt_seg "securedBy" (option_map strings_node (a_securedBy a))
    | AUses => if_seg (nonempty (a_uses a)) "uses" (string_map_node (a_uses a))
    | ASecuritySchemes => if_seg (nonempty (a_securitySchemes a)) "securitySchemes" (untyped_to_yaml (a_securitySchemes a))
    | ABaseURIParameters => if_seg (nonempty (a_baseURIParameters a)) "baseUriParameters" (untyped_to_yaml (a_baseURIParameters a))
    | ATraits => if_seg (nonempty (a_traits a)) "traits" (untyped_to_yaml (a_traits a))
    | AAnnotationTypes => if_seg (nonempty (a_annotationTypes a)) "annotationTypes" (untyped_to_yaml (a_annotationTypes a))
    | AResourceTypes => if_seg (nonempty (a_resourceTypes a)) "resourceTypes" (untyped_to_yaml (a_resourceTypes a))
    | AAnnotations => all_seg KStr untyped_to_yaml (ents (a_annotations a))
    | AExtra => all_seg (fun k => k) to_node (ents (a_extra a))
    | AResources => all_seg KStr to_node (ents (a_resources a))
    | ATypes => if_seg (nonempty (a_types a)) "types" (types_to_yaml to_yaml (a_types a))
    end.

  Lemma api_out_segs a : api_out a = puts_all (flat_map (api_seg a) api_order) [].
  Proof.
    unfold api_out. rewrite !oput_opt_puts, !oput_if_puts, !oput_all_puts, oput_puts.
    cbn [api_order flat_map]. rewrite !puts_all_app. reflexivity.
  Qed.

  Lemma api_seg_keys a f : map fst (api_seg a f) = api_field_keys a f.
  Proof.
    destruct f; cbn [api_seg api_field_keys]; unfold once.
    all: try (rewrite opt_keys; match goal with |- context [option_map _ ?o] => destruct o end; reflexivity).
    all: try (unfold str_opt; rewrite opt_keys; match goal with |- context [option_map _ ?o] => destruct o end; reflexivity).
    all: try (unfold if_seg, nonempty, filled_in; match goal with |- context [ents ?o] => destruct (ents o) end; reflexivity).
    all: try (unfold all_seg; rewrite !map_map; reflexivity).
    reflexivity.
  Qed.

  Lemma api_order_nodup : NoDup api_order.
  Proof. unfold api_order. repeat constructor; cbn; intuition discriminate. Qed.
  Lemma api_order_all f : In f api_order.
  Proof. destruct f; cbn; tauto. Qed.

  Lemma apart_extra (l : list gkey) s : ~ In (KStr s) l -> forall b, In b l -> gkey_eqb (KStr s) b = false /\ gkey_eqb b (KStr s) = false.
  Proof.
    intros H b Hb. destruct b as [|b0|t|z|f0|n]; try (split; reflexivity).
    split; cbn; apply String.eqb_neq; intros E; apply H; subst; exact Hb.
  Qed.

  Lemma gkey_str_neq s t : s <> t -> gkey_eqb (KStr s) (KStr t) = false.
  Proof. intros H. cbn. apply String.eqb_neq. exact H. Qed.

  Definition api_free (f : afield) : bool := match f with AAnnotations | AExtra | AResources => true | _ => false end.

  Lemma api_named_keys a f k : api_free f = false -> In k (api_field_keys a f) -> k = KStr (api_key f) /\ api_key f <> "".
  Proof.
    intros Hf H. destruct f; cbn in Hf; try discriminate Hf; cbn [api_field_keys] in H; unfold once in H;
      try match type of H with In _ (if ?b then _ else _) => destruct b end; cbn in H; try (destruct H as [<-|H]; [split; [reflexivity|discriminate]|]); destruct H.
  Qed.

  Lemma api_tidy_apart a : api_tidy a -> apart (flat_map (api_field_keys a) api_order) = true.
  Proof.
    intros [T1 [T2 [T3 [T4 [T5 T6]]]]]. apply apart_flat_map; [apply api_order_nodup| |].
    - intros f _. destruct (api_free f) eqn:Ef.
      + destruct f; try discriminate Ef; cbn [api_field_keys]; [apply apart_strings; exact T1|exact T2|apply apart_strings; exact T3].
      + destruct f; try discriminate Ef; cbn [api_field_keys]; unfold once; try match goal with |- context [if ?b then _ else _] => destruct b end; reflexivity.
    - intros f g x y _ _ N Hx Hy. 
      assert (S : forall f x, api_free f = true -> In x (api_field_keys a f) -> f = AExtra /\ In x (map fst (ents (a_extra a))) \/
        exists s, x = KStr s /\ (f = AAnnotations /\ In s (map fst (ents (a_annotations a))) \/ f = AResources /\ In s (map fst (ents (a_resources a))))).
      { clear. intros f x Ef H. destruct f; try discriminate Ef; cbn [api_field_keys] in H.
        - right. apply in_map_iff in H as [s [<- H]]. eauto.
        - auto.
        - right. apply in_map_iff in H as [s [<- H]]. eauto. }
      destruct (api_free f) eqn:Ef, (api_free g) eqn:Eg.
      + apply (S f x Ef) in Hx. apply (S g y Eg) in Hy.
        destruct Hx as [[-> Hx]|[s [-> [[-> Hx]|[-> Hx]]]]], Hy as [[-> Hy]|[t [-> [[-> Hy]|[-> Hy]]]]]; try congruence.
        * apply (apart_extra _ t (proj1 (T5 t Hy)) x Hx).
        * apply (apart_extra _ t (T6 t Hy) x Hx).
        * apply (apart_extra _ s (proj1 (T5 s Hx)) y Hy).
        * apply gkey_str_neq. intros ->. exact (proj2 (T5 t Hx) Hy).
        * apply (apart_extra _ s (T6 s Hx) y Hy).
        * apply gkey_str_neq. intros ->. exact (proj2 (T5 t Hy) Hx).
      + apply (S f x Ef) in Hx. apply (api_named_keys a g y Eg) in Hy as [-> Ng]. destruct (T4 g (api_order_all g) Ng) as [U1 [U2 U3]].
        destruct Hx as [[-> Hx]|[s [-> [[-> Hx]|[-> Hx]]]]].
        * apply (apart_extra _ _ U2 x Hx).
        * apply gkey_str_neq. intros ->. contradiction.
        * apply gkey_str_neq. intros ->. contradiction.
      + apply (S g y Eg) in Hy. apply (api_named_keys a f x Ef) in Hx as [-> Nf]. destruct (T4 f (api_order_all f) Nf) as [U1 [U2 U3]].
        destruct Hy as [[-> Hx]|[s [-> [[-> Hx]|[-> Hx]]]]].
        * apply (apart_extra _ _ U2 y Hx).
        * apply gkey_str_neq. intros E. rewrite <- E in Hx. contradiction.
        * apply gkey_str_neq. intros E. rewrite <- E in Hx. contradiction.
      + apply (api_named_keys a f x Ef) in Hx as [-> Nf]. apply (api_named_keys a g y Eg) in Hy as [-> Ng].
        apply gkey_str_neq. intros E. apply N. revert E. destruct f; try discriminate Ef; destruct g; try discriminate Eg; cbn; try reflexivity; discriminate.
  Qed.

  Lemma api_out_tidy a : api_tidy a -> api_out a = flat_map (api_seg a) api_order.
  Proof.
    intros H. rewrite api_out_segs. apply puts_fresh_nil. rewrite map_flat_map.
    rewrite (flat_map_ext _ (api_field_keys a)) by (intros f; apply api_seg_keys). apply api_tidy_apart. exact H.
  Qed.

  Lemma api_written_iff a n : api_tidy a -> (api_marshal a = Ok n <-> exists l, n = Map TMap l /\ Forall2 wrote (flat_map (api_seg a) api_order) l).
  Proof. intros H. unfold api_marshal. rewrite (api_out_tidy a H). apply out_to_yaml_ok. Qed.
End WriteApi.

(** ** What was read is tidy *)

Lemma kputs_apart {V} (kvs : list (gkey * V)) : forall m, apart (map fst (ents m)) = true -> apart (map fst (ents (kputs kvs m))) = true.
Proof. induction kvs as [|[k v] kvs IH]; intros m H; [exact H|]. cbn. apply IH. apply kput_apart. exact H. Qed.

Lemma kput_in {V} k (v : V) m x : In x (ents (kput k v m)) -> x = (k, v) \/ In x (ents m).
Proof.
  cbn. unfold sput, sdelete. intros H. apply in_app_or in H as [H|[<-|[]]]; [|auto]. apply filter_In in H as [H _]. auto.
Qed.

Lemma kputs_in {V} (kvs : list (gkey * V)) : forall m x, In x (ents (kputs kvs m)) -> In x kvs \/ In x (ents m).
Proof.
  induction kvs as [|[k v] kvs IH]; intros m x H; [auto|]. cbn in H. apply IH in H as [H|H]; [left; right; exact H|].
  apply kput_in in H as [->|H]; [left; left; reflexivity|auto].
Qed.

Lemma mput_in {V} k (v : V) m x : In x (ents (mput k v m)) -> x = (k, v) \/ In x (ents m).
Proof.
  cbn. unfold sput, sdelete. intros H. apply in_app_or in H as [H|[<-|[]]]; [|auto]. apply filter_In in H as [H _]. auto.
Qed.

Lemma mputs_in {V} (kvs : list (string * V)) : forall m x, In x (ents (mputs kvs m)) -> In x kvs \/ In x (ents m).
Proof.
  induction kvs as [|[k v] kvs IH]; intros m x H; [auto|]. cbn in H. apply IH in H as [H|H]; [left; right; exact H|].
  apply mput_in in H as [->|H]; [left; left; reflexivity|auto].
Qed.

Lemma Forall2_in_r {A B} (P : A -> B -> Prop) l l' y : Forall2 P l l' -> In y l' -> exists x, In x l /\ P x y.
Proof.
  intros H. induction H as [|x z l l' Hx _ IH]; [intros []|]. intros [<-|Hi]; [exists x; split; [left; reflexivity|exact Hx]|].
  destruct (IH Hi) as [w [H1 H2]]. exists w. split; [right; exact H1|exact H2].
Qed.

Definition slash (s : string) : bool := match s with String c _ => Ascii.eqb c "/" | EmptyString => false end.

Section ReadTidy.
  Context {F : FloatIO}.

  Lemma extra_read (pick : node * node -> bool) l (m : amap gkey gval) :
    (exists kvs, Forall2 (fun p kv => to_scalar (fst p) = Ok (fst kv) /\ snd kv = GNode (snd p)) (filter pick l) kvs /\ m = kputs kvs (mkMap [] false)) ->
    apart (map fst (ents m)) = true /\
    forall k v, In (k, v) (ents m) -> exists p, In p l /\ pick p = true /\ to_scalar (fst p) = Ok k /\ v = GNode (snd p).
  Proof.
    intros [kvs [H ->]]. split; [apply kputs_apart; reflexivity|]. intros k v Hi. apply kputs_in in Hi as [Hi|[]].
    apply (Forall2_in_r _ _ _ _ H) in Hi as [p [Hp [E1 E2]]]. apply filter_In in Hp as [Hp1 Hp2]. cbn in *. eauto 6.
  Qed.

  Lemma anns_entries l (m : amap string untyped) :
    (exists kvs, Forall2 ann_entry (filter (fun p => is_annotation_key (fst p)) l) kvs /\ m = mputs kvs (mkMap [] false)) ->
    NoDup (map fst (ents m)) /\ forall s v, In (s, v) (ents m) -> starts_paren s = true /\ exists p, In p l /\ is_annotation_key (fst p) = true /\ read_annotation (snd p) = Ok v.
  Proof.
    intros [kvs [H ->]]. split; [apply mputs_nodup; constructor|]. intros s v Hi. apply mputs_in in Hi as [Hi|[]].
    apply (Forall2_in_r _ _ _ _ H) in Hi as [p [Hp [E1 E2]]]. apply filter_In in Hp as [Hp1 Hp2]. cbn in *. split; [|eauto].
    subst s. unfold is_annotation_key in Hp2. apply andb_true_iff in Hp2 as [_ Hp2]. exact Hp2.
  Qed.

  Lemma resources_entries l (m : untyped) :
    m = mputs (map (fun p => (value (fst p), GNode (snd p))) (filter (fun p => is_resource_key (fst p)) l)) (mkMap [] false) ->
    NoDup (map fst (ents m)) /\ forall s v, In (s, v) (ents m) -> slash s = true /\ exists n, v = GNode n.
  Proof.
    intros ->. split; [apply mputs_nodup; constructor|]. intros s v Hi. apply mputs_in in Hi as [Hi|[]].
    apply in_map_iff in Hi as [p [E Hp]]. apply filter_In in Hp as [_ Hp]. injection E as <- <-. unfold is_resource_key in Hp.
    apply andb_true_iff in Hp as [_ Hp]. split; [exact Hp|eauto].
  Qed.

  Lemma scalar_str n s : to_scalar n = Ok (KStr s) -> is_string n = true /\ value n = s.
  Proof.
    destruct n as [t v| |]; try discriminate. destruct t; cbn [to_scalar]; intros H; try discriminate H.
    all: try (apply bind_ok in H as [x [_ H]]; discriminate H).
    injection H as <-. split; reflexivity.
  Qed.

  Lemma keys_in {K V} (m : list (K * V)) k : In k (map fst m) -> exists v, In (k, v) m.
  Proof. intros H. apply in_map_iff in H as [[k' v] [<- H]]. eauto. Qed.

  Lemma api_read_tidy l a : api_document l a -> api_tidy a.
  Proof.
    intros (_ & _ & _ & _ & _ & _ & _ & _ & _ & _ & _ & _ & _ & _ & _ & A & R & X).
    apply anns_entries in A as [A1 A2]. apply resources_entries in R as [R1 R2]. apply extra_read in X as [X1 X2].
    assert (XS : forall s, In (KStr s) (map fst (ents (a_extra a))) -> starts_paren s = false /\ slash s = false /\ ~ In s api_names).
    { intros s H. apply keys_in in H as [v H]. apply X2 in H as [p [_ [Hp [E _]]]]. apply scalar_str in E as [E1 E2].
      unfold api_extra_key, is_annotation_key, is_resource_key in Hp. rewrite E1, E2 in Hp. cbn [andb] in Hp. apply negb_true_iff in Hp.
      apply orb_false_iff in Hp as [Hp H3]. apply orb_false_iff in Hp as [H1 H2]. split; [exact H1|]. split; [exact H2|].
      intros Hi. assert (existsb (String.eqb s) ("" :: api_names) = true); [|congruence].
      apply existsb_exists. exists s. split; [right; exact Hi|apply String.eqb_refl]. }
    split; [exact A1|]. split; [exact X1|]. split; [exact R1|]. split; [|split].
    - intros f _ Hf. assert (N : starts_paren (api_key f) = false /\ slash (api_key f) = false /\ In (api_key f) api_names).
      { destruct f; try (exfalso; apply Hf; reflexivity); (split; [reflexivity|split; [reflexivity|cbn; tauto]]). }
      destruct N as [N1 [N2 N3]]. split; [|split].
      + intros H. apply keys_in in H as [v H]. apply A2 in H as [H _]. congruence.
      + intros H. apply XS in H as [_ [_ H]]. contradiction.
      + intros H. apply keys_in in H as [v H]. apply R2 in H as [H _]. congruence.
    - intros s H. apply keys_in in H as [v H]. apply A2 in H as [H _]. split.
      + intros Hx. apply XS in Hx as [Hx _]. congruence.
      + intros Hr. apply keys_in in Hr as [w Hr]. apply R2 in Hr as [Hr _]. destruct s as [|c r]; [discriminate H|]. cbn in H, Hr.
        apply Ascii.eqb_eq in H, Hr. congruence.
    - intros s H Hx. apply keys_in in H as [v H]. apply R2 in H as [H _]. apply XS in Hx as [_ [Hx _]]. congruence.
  Qed.
End ReadTidy.

(** ** The written document *)

Section WrittenApi.
  Context {F : FloatIO}.

  Lemma key_node_str k s : (forall x, fst (float_text x) <> TStr) -> key_node k = Ok (str_node s) -> k = KStr s.
  Proof.
    intros Hx. destruct k as [|b|t|z|f|n]; cbn; intros H; try discriminate H; [injection H as ->; reflexivity|].
    injection H as H _. destruct (Hx f H).
  Qed.

  Lemma Forall2_map_l {A B C} (g : A -> B) (P : B -> C -> Prop) l l' : Forall2 P (map g l) l' <-> Forall2 (fun a => P (g a)) l l'.
  Proof.
    split.
    - revert l'. induction l as [|a l IH]; intros l' H; inversion H; subst; constructor; auto.
    - intros H. induction H; constructor; auto.
  Qed.

  Lemma all_seg_wrote {V} (kf : V -> res node) (m : list (string * V)) l : Forall2 wrote (all_seg KStr kf m) l <->
    Forall2 (fun e p => fst p = str_node (fst e) /\ kf (snd e) = Ok (snd p)) m l.
  Proof.
    unfold all_seg. split; intros H.
    - apply (proj1 (Forall2_map_l _ _ _ _)) in H. eapply Forall2_impl; [|exact H]. intros e p [A B]. cbn in A. injection A as A. split; [symmetry; exact A|exact B].
    - apply (proj2 (Forall2_map_l _ _ _ _)). eapply Forall2_impl; [|exact H]. intros e p [A B]. split; [cbn; rewrite A; reflexivity|exact B].
  Qed.

  Lemma Forall2_split {A B} (P : A -> B -> Prop) a b l : Forall2 P (a ++ b) l -> exists x y, l = x ++ y /\ Forall2 P a x /\ Forall2 P b y.
  Proof. intros H. apply Forall2_app_inv_l in H as [x [y [H1 [H2 ->]]]]. eauto. Qed.

  Lemma api_written a l : api_tidy a -> api_marshal a = Ok (Map TMap l) ->
    Forall2 (fun k p => key_node k = Ok (fst p)) (flat_map (api_field_keys a) api_order) l /\
    apart (flat_map (api_field_keys a) api_order) = true /\
    (exists rest, l = (str_node "title", str_node (a_title a)) :: rest) /\
    ((forall x, fst (float_text x) <> TStr) ->
     forall f, api_key f <> "" -> (exists n, In (str_node (api_key f), n) l) <-> api_field_keys a f <> []) /\
    (exists l1 xs rs l2, l = l1 ++ xs ++ rs ++ l2 /\
       Forall2 (fun e p => key_node (fst e) = Ok (fst p) /\ to_node (snd e) = Ok (snd p)) (ents (a_extra a)) xs /\
       Forall2 (fun e p => fst p = str_node (fst e) /\ to_node (snd e) = Ok (snd p)) (ents (a_resources a)) rs).
  Proof.
    intros Ht H. apply (api_written_iff a _ Ht) in H as [l' [E H]]. injection E as <-.
    assert (K : Forall2 (fun k p => key_node k = Ok (fst p)) (flat_map (api_field_keys a) api_order) l).
    { rewrite <- (flat_map_ext _ _ (api_seg_keys a)), <- map_flat_map. apply (proj2 (Forall2_map_l _ _ _ _)). eapply Forall2_impl; [|exact H].
      intros e p [X _]. exact X. }
    split; [exact K|]. split; [exact (api_tidy_apart a Ht)|]. split; [|split].
    - cbn [api_order flat_map api_seg app] in H. inversion H as [|e p r rest [X Y] Hr]; subst. exists rest. f_equal.
      destruct p as [p1 p2]. cbn in *. injection X as <-. injection Y as <-. reflexivity.
    - intros Hx f Nf. split.
      + intros [n Hi] E. apply (Forall2_in_r _ _ _ _ K) in Hi as [k [Hk X]]. cbn in X. apply (key_node_str _ _ Hx) in X. subst k.
        apply in_flat_map in Hk as [g [_ Hg]]. destruct (afield_dec f g) as [<-|N]; [rewrite E in Hg; exact Hg|].
        destruct (api_free g) eqn:Eg.
        * destruct Ht as [_ [_ [_ [T4 _]]]]. destruct (T4 f (api_order_all f) Nf) as [U1 [U2 U3]].
          destruct g; try discriminate Eg; cbn [api_field_keys] in Hg; try contradiction; apply in_map_iff in Hg as [s [Es Hs]]; injection Es as ->; contradiction.
        * apply (api_named_keys a g _ Eg) in Hg as [Hg _]. injection Hg as Hg. revert Nf N Hg. clear. destruct f, g; cbn; congruence.
      + intros E. destruct (api_field_keys a f) as [|k ks] eqn:Ek; [congruence|].
        assert (Hk : k = KStr (api_key f)).
        { destruct (api_free f) eqn:Ef; [destruct f; try discriminate Ef; cbn in Nf; congruence|].
          apply (api_named_keys a f k Ef). rewrite Ek. left. reflexivity. }
        subst k. assert (Hi : In (KStr (api_key f)) (flat_map (api_field_keys a) api_order)).
        { apply in_flat_map. exists f. split; [apply api_order_all|]. rewrite Ek. left. reflexivity. }
        clear - K Hi. induction K as [|k p ks l Hp _ IH]; [destruct Hi|]. destruct Hi as [->|Hi].
        * destruct p as [p1 p2]. cbn in Hp. injection Hp as <-. exists p2. left. reflexivity.
        * destruct (IH Hi) as [n Hn]. exists n. right. exact Hn.
    - change api_order with ([ATitle; AVersion; ABaseURI; ADescription; AProtocols; AMediaType; ADocumentation; ASecuredBy; AUses; ASecuritySchemes;
        ABaseURIParameters; ATraits; AAnnotationTypes; AResourceTypes; AAnnotations] ++ [AExtra; AResources; ATypes]) in H.
      rewrite flat_map_app in H. cbn [flat_map] in H.
      apply Forall2_split in H as [l1 [r1 [-> [_ H]]]]. apply Forall2_split in H as [xs [r2 [-> [X H]]]].
      apply Forall2_split in H as [rs [l2 [-> [R _]]]]. exists l1, xs, rs, l2. split; [reflexivity|]. split; [|apply all_seg_wrote; exact R].
      cbn [api_seg] in X. unfold all_seg in X. apply (proj1 (Forall2_map_l _ _ _ _)) in X. exact X.
  Qed.
End WrittenApi.
