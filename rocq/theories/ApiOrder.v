(** Proofs about repeated keys (C58) and the order of keys (C59) in API documents. *)
From Coq Require Import SpecFloat Permutation.
From Verif Require Import Base Num OMap OMapSpec Keys Yaml Values Assign Formats Meta Out Xml Example DataType Marshal Doc Api Library
  AssignProofs TypeFacts Fields FieldProofs FacetSpec FacetProofs DocProofs OrderProofs PathProofs Lens Segs ExProofs WriteProofs ReadInv Same ExRound TypeSegs WriteSpec
  RoundSpec RoundProofs WasRead Writable Crash Parts ApiFields ApiSpec ApiProofs LibProofs ApiWrite ApiRoundSpec ApiRound.

(** The sections whose entries add up. *)
Definition api_adding : list string :=
  ["mediaType"; "documentation"; "uses"; "securitySchemes"; "baseUriParameters"; "traits"; "annotationTypes"; "resourceTypes"; "types"; "schemas"].

Section Repeated.
  Context {F : FloatIO}.

  Lemma filter_skip {A} (p : A -> bool) pre a r : p a = false -> filter p (pre ++ a :: r) = filter p (pre ++ r).
  Proof. intros H. rewrite !filter_app. cbn [filter]. rewrite H. reflexivity. Qed.

  Lemma filter_two {A} (p : A -> bool) pre a mid b post : p a = true -> p b = true ->
    filter p (pre ++ a :: mid ++ b :: post) = filter p pre ++ a :: filter p mid ++ b :: filter p post /\
    filter p (pre ++ mid ++ b :: post) = filter p pre ++ filter p mid ++ b :: filter p post.
  Proof. intros H1 H2. rewrite !filter_app. cbn [filter]. rewrite !filter_app. cbn [filter]. rewrite H1, H2. auto. Qed.

  Lemma split_two {A B} (P : A -> B -> Prop) pre a mid b post l : Forall2 P (pre ++ a :: mid ++ b :: post) l ->
    exists l1 x l2 y l3, l = l1 ++ x :: l2 ++ y :: l3 /\ P a x /\ P b y /\ Forall2 P (pre ++ mid ++ b :: post) (l1 ++ l2 ++ y :: l3).
  Proof.
    intros H. apply Forall2_app_inv_l in H as [l1 [r1 [H1 [H2 ->]]]]. inversion H2 as [|a' x m' r2 Hx H3]; subst.
    apply Forall2_app_inv_l in H3 as [l2 [r3 [H4 [H5 ->]]]]. inversion H5 as [|b' y p' l3 Hy H6]; subst.
    exists l1, x, l2, y, l3. split; [reflexivity|]. split; [exact Hx|]. split; [exact Hy|].
    apply Forall2_app; [exact H1|]. apply Forall2_app; [exact H4|]. constructor; assumption.
  Qed.

  Lemma api_repeated t pre key v1 mid v2 post a : findable key ->
    (is_string key = true -> ~ In (value key) api_adding) ->
    api_unmarshal (Map t (pre ++ (key, v1) :: mid ++ (key, v2) :: post)) new_api = Ok a ->
    api_unmarshal (Map t (pre ++ mid ++ (key, v2) :: post)) new_api = Ok a.
  Proof.
    intros Hfind Hadd H. apply api_read_iff in H as [Hacc H]. apply api_read_iff. split.
    { apply Forall_app in Hacc as [H1 H2]. inversion H2; subst. apply Forall_app. split; assumption. }
    set (big := pre ++ (key, v1) :: mid ++ (key, v2) :: post) in *. set (small := pre ++ mid ++ (key, v2) :: post).
    destruct H as (A1 & A2 & A3 & A4 & A5 & A6 & A7 & A8 & A9 & A10 & A11 & A12 & A13 & A14 & A15 & A16 & A17 & A18).
    assert (L : forall B s (R : node -> B -> Prop) d o, said big s R d o -> said small s R d o).
    { intros B s R d o. unfold said, big, small. rewrite last_of_skip; [exact (fun H => H)|exact (fun H => H)]. }
    assert (K : forall s, In s api_adding -> filter (named_key s) big = filter (named_key s) small).
    { intros s Hs. apply filter_skip. unfold named_key. cbn [fst]. destruct (is_string key) eqn:Es; [|reflexivity]. cbn [andb].
      apply String.eqb_neq. intros E. apply (Hadd eq_refl). rewrite E. exact Hs. }
    unfold sections, entries_under, items_under, sections in *.
    unfold api_document, sections, entries_under, items_under, sections.
    rewrite (K "mediaType") in A7 by (cbn; tauto). rewrite (K "documentation") in A8 by (cbn; tauto). rewrite (K "uses") in A9 by (cbn; tauto).
    rewrite (K "securitySchemes") in A10 by (cbn; tauto). rewrite (K "baseUriParameters") in A11 by (cbn; tauto). rewrite (K "traits") in A12 by (cbn; tauto).
    rewrite (K "annotationTypes") in A13 by (cbn; tauto). rewrite (K "resourceTypes") in A14 by (cbn; tauto).
    assert (KT : filter is_types_key big = filter is_types_key small).
    { apply filter_skip. unfold is_types_key, named_key. cbn [fst]. destruct (is_string key) eqn:Es; [|reflexivity]. cbn [andb].
      apply orb_false_iff. split; apply String.eqb_neq; intros E; apply (Hadd eq_refl); rewrite E; cbn; tauto. }
    rewrite KT in A15.
    do 6 (split; [apply L; assumption|]). do 9 (split; [assumption|]). split; [|split].
    - destruct A16 as [kvs [B E]]. destruct (is_annotation_key key) eqn:Ek.
      + destruct (filter_two (fun p => is_annotation_key (fst p)) pre (key, v1) mid (key, v2) post Ek Ek) as [F1 F2].
        unfold big in B. rewrite F1 in B. unfold small. rewrite F2.
        apply split_two in B as [l1 [x [l2 [y [l3 [-> [P1 [P2 B]]]]]]]]. eexists. split; [exact B|]. rewrite E. apply mputs_skip.
        destruct P1 as [P1 _], P2 as [P2 _]. rewrite P1, P2. reflexivity.
      + exists kvs. split; [|exact E]. unfold small. rewrite <- (filter_skip _ pre (key, v1)) by exact Ek. exact B.
    - rewrite A17. destruct (is_resource_key key) eqn:Ek.
      + destruct (filter_two (fun p => is_resource_key (fst p)) pre (key, v1) mid (key, v2) post Ek Ek) as [F1 F2].
        unfold big, small. rewrite F1, F2. rewrite !map_app. cbn [map]. rewrite !map_app. cbn [map]. apply mputs_skip. reflexivity.
      + unfold big, small. rewrite (filter_skip _ pre (key, v1)) by exact Ek. reflexivity.
    - destruct A18 as [kvs [B E]]. destruct (api_extra_key (key, v1)) eqn:Ek.
      + destruct (filter_two api_extra_key pre (key, v1) mid (key, v2) post Ek Ek) as [F1 F2].
        unfold big in B. rewrite F1 in B. unfold small. rewrite F2.
        apply split_two in B as [l1 [x [l2 [y [l3 [-> [P1 [P2 B]]]]]]]]. eexists. split; [exact B|]. rewrite E.
        destruct P1 as [P1 _], P2 as [P2 _]. cbn [fst] in P1, P2. apply kputs_skip; [congruence|].
        apply findable_refl; [apply Hfind; exact P2|eapply to_scalar_hashable; exact P2].
      + exists kvs. split; [|exact E]. unfold small. rewrite <- (filter_skip _ pre (key, v1)) by exact Ek. exact B.
  Qed.
End Repeated.

(** ** The order of keys *)

(** Two keys of an API document are different: as Go values, and not one `types` and the other `schemas`. *)
Definition differ {F : FloatIO} (p q : node * node) : Prop :=
  (forall k k', to_scalar (fst p) = Ok k -> to_scalar (fst q) = Ok k' -> gkey_eqb k k' = false) /\
  ~ (is_types_key p = true /\ is_types_key q = true).
Definition no_key_twice {F : FloatIO} (l : list (node * node)) : Prop := ForallOrdPairs differ l.

(** Equal but for the order of annotations, extra facets and resources. *)
Definition same_entries {K V} (m m' : amap K V) : Prop := Permutation (ents m) (ents m') /\ oord m = oord m'.
Definition same_api_but_order (a a' : api) : Prop :=
  a_title a' = a_title a /\ a_version a' = a_version a /\ a_baseURI a' = a_baseURI a /\ a_description a' = a_description a /\
  a_protocols a' = a_protocols a /\ a_securedBy a' = a_securedBy a /\ a_mediaType a' = a_mediaType a /\ a_documentation a' = a_documentation a /\
  a_uses a' = a_uses a /\ a_securitySchemes a' = a_securitySchemes a /\ a_baseURIParameters a' = a_baseURIParameters a /\ a_traits a' = a_traits a /\
  a_annotationTypes a' = a_annotationTypes a /\ a_resourceTypes a' = a_resourceTypes a /\ a_types a' = a_types a /\
  same_entries (a_annotations a) (a_annotations a') /\ same_entries (a_resources a) (a_resources a') /\ same_entries (a_extra a) (a_extra a').

Section Order.
  Context {F : FloatIO}.

  Lemma apart_perm l l' : Permutation l l' -> apart l = true -> apart l' = true.
  Proof.
    induction 1 as [|x l l' P IH|x y l|l1 l2 l3 P1 IH1 P2 IH2]; cbn [apart forallb]; auto.
    - rewrite !andb_true_iff, !forallb_forall. intros [H1 H2]. split; [|auto]. intros b Hb. apply H1. eapply Permutation_in; [symmetry; exact P|exact Hb].
    - rewrite !andb_true_iff, !negb_true_iff. intros [[H1 H2] [H3 H4]]. rewrite gkey_eqb_sym. auto.
  Qed.

  Lemma pairs_filter {A} (R : A -> A -> Prop) p l : ForallOrdPairs R l -> ForallOrdPairs R (filter p l).
  Proof.
    induction 1 as [|a l H1 H2 IH]; cbn [filter]; [constructor|]. destruct (p a); [|exact IH]. constructor; [|exact IH].
    rewrite Forall_forall in *. intros b Hb. apply filter_In in Hb as [Hb _]. auto.
  Qed.

  Lemma pairs_single {A} (R : A -> A -> Prop) p l : ForallOrdPairs R l -> (forall a b, p a = true -> p b = true -> R a b -> False) ->
    (List.length (filter p l) <= 1)%nat.
  Proof.
    intros H N. assert (G : Forall (fun a => p a = true) (filter p l)) by (apply Forall_forall; intros a Ha; apply filter_In in Ha as [_ Ha]; exact Ha).
    apply (pairs_filter R p) in H. destruct (filter p l) as [|a [|b r]]; cbn; try lia. exfalso.
    inversion H as [|x y H1 H2]; subst. inversion G as [|x y G1 G2]; subst. inversion G2 as [|x y G3 G4]; subst. inversion H1 as [|x y H3 H4]; subst.
    eapply N; [exact G1|exact G3|exact H3].
  Qed.

  Lemma last_of_filter {A} (p : A -> bool) l : last_of p l = last_of (fun _ => true) (filter p l).
  Proof.
    induction l as [|a l IH] using rev_ind; [reflexivity|]. rewrite last_of_snoc, filter_app. cbn [filter].
    destruct (p a); [rewrite last_of_snoc; reflexivity|]. rewrite app_nil_r. exact IH.
  Qed.

  Lemma named_scalar s p : named_key s p = true -> s <> "" -> to_scalar (fst p) = Ok (KStr s).
  Proof.
    unfold named_key. rewrite andb_true_iff, String.eqb_eq. intros [H1 H2] Hs. destruct p as [[t v|t v|t v] x]; cbn in *; try congruence.
    all: try (destruct t; discriminate || (cbn; congruence)).
  Qed.

  Lemma named_single s l : s <> "" -> no_key_twice l -> (List.length (filter (named_key s) l) <= 1)%nat.
  Proof.
    intros Hs H. apply (pairs_single differ _ _ H). intros a b Ha Hb [D _].
    specialize (D _ _ (named_scalar s a Ha Hs) (named_scalar s b Hb Hs)). cbn in D. rewrite String.eqb_refl in D. discriminate.
  Qed.

  Lemma prefix_scalar c (p : node * node) : is_string (fst p) && match value (fst p) with String d _ => Ascii.eqb d c | EmptyString => false end = true ->
    to_scalar (fst p) = Ok (KStr (value (fst p))).
  Proof.
    intros H. apply andb_true_iff in H as [H1 H2]. destruct p as [[t v|t v|t v] x]; cbn in *; try discriminate.
    destruct t; discriminate || reflexivity.
  Qed.

  Lemma pairs_nodup m (l : list (node * node)) : no_key_twice l -> (forall p, m p = true -> to_scalar (fst p) = Ok (KStr (value (fst p)))) -> NoDup (map text (filter m l)).
  Proof.
    intros H N. assert (G : Forall (fun a => m a = true) (filter m l)) by (apply Forall_forall; intros a Ha; apply filter_In in Ha as [_ Ha]; exact Ha).
    apply (pairs_filter differ m) in H. induction H as [|a r H1 H2 IH]; cbn [map]; [constructor|].
    inversion G as [|x y G1 G2]; subst. constructor; [|exact (IH G2)]. intros Hin. apply in_map_iff in Hin as [b [E Hb]].
    rewrite Forall_forall in H1, G2. destruct (H1 b Hb) as [D _]. specialize (D _ _ (N a G1) (N b (G2 b Hb))). unfold text in E. cbn in D.
    rewrite E, String.eqb_refl in D. discriminate.
  Qed.

  Lemma pairs_apart {V} (l : list (node * node)) (kvs : list (gkey * V)) (R : node -> V -> Prop) :
    Forall2 (fun p kv => to_scalar (fst p) = Ok (fst kv) /\ R (snd p) (snd kv)) l kvs -> no_key_twice l -> apart (map fst kvs) = true.
  Proof.
    induction 1 as [|p kv r rs [H1 H2] H3 IH]; intros N; [reflexivity|]. inversion N as [|x y N1 N2]; subst. cbn [map apart].
    apply andb_true_iff. split; [|exact (IH N2)]. apply forallb_forall. intros k Hk. apply in_map_iff in Hk as [kv' [<- Hk]].
    destruct (Forall2_in_r _ _ _ _ H3 Hk) as [q [Hq [E _]]]. rewrite Forall_forall in N1. destruct (N1 q Hq) as [D _].
    rewrite (D _ _ H1 E). reflexivity.
  Qed.

  Lemma said_perm {B} l l' s (R : node -> B -> Prop) d o : s <> "" -> no_key_twice l -> Permutation l l' -> said l s R d o -> said l' s R d o.
  Proof.
    intros Hs H P. unfold said. rewrite (last_of_filter _ l), (last_of_filter _ l').
    rewrite (Permutation_single _ _ (named_single s l Hs H) (Permutation_filter (named_key s) _ _ P)). exact (fun H => H).
  Qed.

  Lemma types_single l : no_key_twice l -> (List.length (filter is_types_key l) <= 1)%nat.
  Proof. intros H. apply (pairs_single differ _ _ H). intros a b Ha Hb [_ D]. auto. Qed.

  Lemma api_key_order t l l' a : Permutation l l' -> no_key_twice l -> api_unmarshal (Map t l) new_api = Ok a ->
    exists a', api_unmarshal (Map t l') new_api = Ok a' /\ same_api_but_order a a'.
  Proof.
    intros P N H. apply api_read_iff in H as [Hacc H].
    destruct H as (A1 & A2 & A3 & A4 & A5 & A6 & A7 & A8 & A9 & A10 & A11 & A12 & A13 & A14 & A15 & A16 & A17 & A18).
    assert (K : forall s, s <> "" -> filter (named_key s) l = filter (named_key s) l').
    { intros s Hs. apply Permutation_single; [apply named_single; assumption|]. apply Permutation_filter. exact P. }
    assert (KT : filter is_types_key l = filter is_types_key l').
    { apply Permutation_single; [apply types_single; assumption|]. apply Permutation_filter. exact P. }
    destruct A16 as [ka [B16 E16]], A18 as [ke [B18 E18]].
    assert (Pa := Permutation_filter (fun p => is_annotation_key (fst p)) _ _ P).
    destruct (Permutation_Forall2 Pa B16) as [ka' [Pka B16']].
    destruct (Permutation_Forall2 (Permutation_filter api_extra_key _ _ P) B18) as [ke' [Pke B18']].
    assert (Pr := Permutation_filter (fun p => is_resource_key (fst p)) _ _ P).
    set (kr := map (fun p => (value (fst p), GNode (snd p))) (filter (fun p => is_resource_key (fst p)) l)) in *.
    set (kr' := map (fun p => (value (fst p), GNode (snd p))) (filter (fun p => is_resource_key (fst p)) l')) in *.
    assert (Pkr : Permutation kr kr') by (apply Permutation_map; exact Pr).
    assert (Na : NoDup (map fst ka)).
    { rewrite (ann_keys _ _ B16). apply pairs_nodup; [exact N|]. intros p Hp. exact (prefix_scalar "(" p Hp). }
    assert (Nr : NoDup (map fst kr)).
    { unfold kr. rewrite map_map. cbn [fst]. apply pairs_nodup; [exact N|]. intros p Hp. exact (prefix_scalar "/" p Hp). }
    assert (Ne : apart (map fst ke) = true) by (apply (pairs_apart _ _ (fun n v => v = GNode n) B18); apply pairs_filter; exact N).
    set (a' := mkApi (a_title a) (a_description a) (a_version a) (a_baseURI a) (a_baseURIParameters a) (a_protocols a) (a_mediaType a) (a_documentation a)
       (a_types a) (a_traits a) (a_resourceTypes a) (a_annotationTypes a) (mputs ka' (mkMap [] false)) (a_securitySchemes a) (a_securedBy a) (a_uses a)
       (mputs kr' (mkMap [] false)) (kputs ke' (mkMap [] false))).
    exists a'. split.
    - apply api_read_iff. split; [apply (Permutation_Forall P Hacc)|].
      unfold api_document, sections, entries_under, items_under, sections in *.
      rewrite <- !K by discriminate. rewrite <- KT. unfold a'.
      cbn [a_title a_version a_baseURI a_description a_protocols a_mediaType a_documentation a_securedBy a_uses a_securitySchemes a_baseURIParameters a_traits
        a_annotationTypes a_resourceTypes a_annotations a_extra a_resources a_types].
      do 6 (split; [eapply said_perm; [discriminate|exact N|exact P|eassumption]|]). do 9 (split; [assumption|]). split; [|split].
      + exists ka'. auto.
      + reflexivity.
      + exists ke'. auto.
    - unfold same_api_but_order, same_entries, a'.
      cbn [a_title a_version a_baseURI a_description a_protocols a_mediaType a_documentation a_securedBy a_uses a_securitySchemes a_baseURIParameters a_traits
        a_annotationTypes a_resourceTypes a_annotations a_extra a_resources a_types].
      rewrite E16, A17, E18. do 15 (split; [reflexivity|]).
      rewrite !mputs_fresh, !kputs_fresh; cbn [app ents oord]; try assumption.
      + repeat split; assumption.
      + eapply apart_perm; [apply Permutation_map; exact Pke|exact Ne].
      + eapply Permutation_NoDup; [apply Permutation_map; exact Pkr|exact Nr].
      + eapply Permutation_NoDup; [apply Permutation_map; exact Pka|exact Na].
  Qed.
End Order.
