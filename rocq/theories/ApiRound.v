(** Proofs that written API documents read back the same. *)
From Coq Require Import SpecFloat.
From Verif Require Import Base Num OMap OMapSpec Keys Yaml Values Assign Formats Meta Out Xml Example DataType Marshal Doc Api Library
  AssignProofs TypeFacts Fields FieldProofs FacetSpec FacetProofs DocProofs OrderProofs PathProofs Lens Segs ExProofs WriteProofs ReadInv Same ExRound TypeSegs WriteSpec
  RoundSpec RoundProofs WasRead Writable Parts ApiFields ApiSpec ApiProofs ApiWrite ApiRoundSpec.

Section Pieces.
  Context {F : FloatIO}.

  (** Entries of a map with text keys that are put next to the other fields. *)
  Lemma entries_back {V W} (st : amap string W -> node * node -> res (amap string W)) (rd : node -> res W) (vf : V -> res node) (R : V -> W -> Prop) b
    (es : list (string * V)) :
    (forall m k n w, In k (map fst es) -> rd n = Ok w -> st m (str_node k, n) = Ok (mput k w m)) -> NoDup (map fst es) ->
    Forall (fun e => exists n w, vf (snd e) = Ok n /\ rd n = Ok w /\ R (snd e) w) es ->
    exists l kvs, Forall2 wrote (all_seg KStr vf es) l /\ (forall p, In p l -> exists k, fst p = str_node k /\ In k (map fst es)) /\
      fold_res st (mkMap [] b) l = Ok (mkMap kvs b) /\ Forall2 (fun e kv => fst e = fst kv /\ R (snd e) (snd kv)) es kvs.
  Proof.
    intros Hst Hn H.
    assert (X : exists l kvs, Forall2 wrote (all_seg KStr vf es) l /\ (forall p, In p l -> exists k, fst p = str_node k /\ In k (map fst es)) /\
      (forall m, fold_res st m l = Ok (mputs kvs m)) /\ Forall2 (fun e kv => fst e = fst kv /\ R (snd e) (snd kv)) es kvs).
    { clear Hn. induction H as [|[k v] es [n [w [H1 [H2 H3]]]] _ IH].
      - exists [], []. repeat split; try constructor. intros p [].
      - destruct IH as [l [kvs [A [B [C D]]]]]; [intros m k' n' w' Hi; apply Hst; right; exact Hi|].
        exists ((str_node k, n) :: l), ((k, w) :: kvs). split; [|split; [|split]].
        + constructor; [split; [reflexivity|exact H1]|exact A].
        + intros p [<-|Hp]; [exists k; split; [reflexivity|left; reflexivity]|]. destruct (B p Hp) as [k' [E Hi]]. exists k'. split; [exact E|right; exact Hi].
        + intros m. cbn [fold_res]. rewrite (Hst m k n w (or_introl eq_refl) H2). cbn [bind]. apply C.
        + constructor; [split; [reflexivity|exact H3]|exact D]. }
    destruct X as [l [kvs [A [B [C D]]]]]. exists l, kvs. split; [exact A|]. split; [exact B|]. split; [|exact D].
    rewrite C. f_equal. rewrite mputs_fresh; [reflexivity|]. cbn [app]. replace (map fst kvs) with (map fst es); [exact Hn|].
    clear - D. induction D as [|e kv es kvs [E _] _ IH]; [reflexivity|]. cbn. congruence.
  Qed.

  Lemma kput_fresh {V} k (v : V) es b : forallb (fun e => negb (gkey_eqb (fst e) k)) es = true -> kput k v (mkMap es b) = mkMap (es ++ [(k, v)]) b.
  Proof.
    intros H. unfold kput. cbn [ents oord]. f_equal. unfold sput, sdelete. f_equal.
    induction es as [|e es IH]; [reflexivity|]. cbn in H. apply andb_true_iff in H as [H1 H2]. cbn [filter]. unfold other at 1.
    rewrite H1. f_equal. apply IH. exact H2.
  Qed.

  Lemma kputs_fresh {V} (kvs : list (gkey * V)) : forall pre b, apart (map fst (pre ++ kvs)) = true -> kputs kvs (mkMap pre b) = mkMap (pre ++ kvs) b.
  Proof.
    induction kvs as [|[k v] kvs IH]; intros pre b H; [cbn; rewrite app_nil_r; reflexivity|]. cbn [kputs fold_left fst snd].
    rewrite map_app in H. apply apart_app in H as [H1 [H2 H3]]. rewrite kput_fresh.
    - change ((k, v) :: kvs) with ([(k, v)] ++ kvs). rewrite app_assoc. apply IH. rewrite <- app_assoc, map_app. apply apart_app. auto.
    - apply forallb_forall. intros e He. apply negb_true_iff. apply H3; [apply in_map; exact He|left; reflexivity].
  Qed.

  Lemma extras_back b (es : list (gkey * gval)) : apart (map fst es) = true ->
    Forall (fun e => key_returns (fst e) /\ has_node (snd e)) es ->
    exists l kvs, Forall2 wrote (all_seg (fun k => k) to_node es) l /\ (forall p, In p l -> exists k, key_node k = Ok (fst p) /\ to_scalar (fst p) = Ok k /\ In k (map fst es)) /\
      fold_res (fun m p => do k <- to_scalar (fst p); Ok (kput k (GNode (snd p)) m)) (mkMap [] b) l = Ok (mkMap kvs b) /\ Forall2 (same_entry same_value) es kvs.
  Proof.
    intros Ha H.
    assert (X : exists l kvs, Forall2 wrote (all_seg (fun k => k) to_node es) l /\ (forall p, In p l -> exists k, key_node k = Ok (fst p) /\ to_scalar (fst p) = Ok k /\ In k (map fst es)) /\
      (forall m, fold_res (fun m p => do k <- to_scalar (fst p); Ok (kput k (GNode (snd p)) m)) m l = Ok (kputs kvs m)) /\
      Forall2 (same_entry same_value) es kvs).
    { clear Ha. induction H as [|[k v] es [[n [H1 H2]] [nv H3]] _ [l [kvs [A [B [C D]]]]]].
      - exists [], []. repeat split; try constructor. intros p [].
      - cbn in H1, H2, H3. exists ((n, nv) :: l), ((k, GNode nv) :: kvs). split; [|split; [|split]].
        + constructor; [split; [exact H1|exact H3]|exact A].
        + intros p [<-|Hp]; [exists k; split; [exact H1|split; [exact H2|left; reflexivity]]|].
          destruct (B p Hp) as [k' [E1 [E2 Hi]]]. exists k'. split; [exact E1|]. split; [exact E2|right; exact Hi].
        + intros m. cbn [fold_res fst snd]. rewrite H2. cbn [bind]. apply C.
        + constructor; [split; [reflexivity|exists nv; split; [exact H3|reflexivity]]|exact D]. }
    destruct X as [l [kvs [A [B [C D]]]]]. exists l, kvs. split; [exact A|]. split; [exact B|]. split; [|exact D].
    rewrite C. f_equal. rewrite kputs_fresh; [reflexivity|]. cbn [app]. replace (map fst kvs) with (map fst es); [exact Ha|].
    clear - D. induction D as [|e kv es kvs [E _] _ IH]; [reflexivity|]. cbn. congruence.
  Qed.

  (** A section. *)
  Lemma section_back {V} (dec : node -> res V) (vn : V -> res node) (R : V -> V -> Prop) (P : V -> Prop) s (m : amap string V) :
    (forall v, P v -> exists n v', vn v = Ok n /\ dec n = Ok v' /\ R v v') -> section_returns P m ->
    exists l, Forall2 wrote (if_seg (nonempty m) s (map_to_yaml skey_node vn m)) l /\ (forall p, In p l -> fst p = str_node s) /\
      exists v, fold_res (fun old (e : node * node) => read_amap dec old (snd e)) (mkMap [] false) l = Ok v /\ same_map R m v.
  Proof.
    intros H [H1 [H2 H3]]. unfold nonempty. destruct (ents m) as [|e es] eqn:E.
    - exists []. split; [constructor|]. split; [intros p []|]. eexists. split; [reflexivity|]. unfold same_map. rewrite E. constructor.
    - assert (Ho : oord m = false) by (apply H1; discriminate). rewrite <- E in H2, H3.
      assert (W : exists n, map_to_yaml skey_node vn m = Ok n).
      { apply write_total. intros k v Hi. split; [eexists; reflexivity|]. rewrite Forall_forall in H3. destruct (H v (H3 _ Hi)) as [n [v' [Hn _]]]. eauto. }
      destruct W as [n W]. destruct (write_read_amap dec vn R false m n Ho H2) as [l [A B]]; [|exact W|].
      { intros k v nv Hi Hv. rewrite Forall_forall in H3. destruct (H v (H3 _ Hi)) as [n' [v' [Hn' [Hd Hr]]]]. rewrite Hv in Hn'. injection Hn' as <-. eauto. }
      exists [(str_node s, n)]. split; [|split].
      + constructor; [|constructor]. split; [reflexivity|exact W].
      + intros p [<-|[]]. reflexivity.
      + exists (mkMap l false). split; [cbn [fold_res snd]; rewrite A; reflexivity|exact B].
  Qed.

  Lemma untyped_section s (m : untyped) : section_returns has_node m ->
    exists l, Forall2 wrote (if_seg (nonempty m) s (untyped_to_yaml m)) l /\ (forall p, In p l -> fst p = str_node s) /\
      exists v, fold_res (fun (old : untyped) (e : node * node) => read_untyped old (snd e)) (mkMap [] false) l = Ok v /\ same_map same_value m v.
  Proof.
    apply (section_back as_gnode to_node same_value has_node). intros v [n Hn]. exists n, (GNode n). split; [exact Hn|]. split; [reflexivity|].
    exists n. split; [exact Hn|reflexivity].
  Qed.

  Lemma uses_section s (m : amap string string) : section_returns (fun _ => True) m ->
    exists l, Forall2 wrote (if_seg (nonempty m) s (string_map_node m)) l /\ (forall p, In p l -> fst p = str_node s) /\
      exists v, fold_res (fun old (e : node * node) => read_strings old (snd e)) (mkMap [] false) l = Ok v /\ same_map eq m v.
  Proof.
    apply (section_back to_str (fun s => Ok (str_node s)) eq (fun _ => True)). intros v _. exists (str_node v), v. repeat split.
  Qed.

  Lemma types_section s (m : amap string dtype) : section_returns type_returns m ->
    exists l, Forall2 wrote (if_seg (nonempty m) s (types_to_yaml to_yaml m)) l /\ (forall p, In p l -> fst p = str_node s) /\
      exists v, fold_res (fun old (e : node * node) => read_types old (snd e)) (mkMap [] false) l = Ok v /\ same_map same_type m v.
  Proof.
    apply (section_back hat to_yaml same_type type_returns). intros v H. apply round_trip in H as [[n [v' [A [B C]]]] _]. exists n, v'. auto.
  Qed.

  Lemma strings_denoted l : denotes_strings (Seq TSeq (map str_node l)) l.
  Proof.
    exists TSeq, (map str_node l). split; [reflexivity|]. induction l as [|s l IH]; constructor; [split; reflexivity|exact IH].
  Qed.

  Lemma docs_written l : Forall (fun d => d = new_doc) l -> docs_node l = Ok (Seq TSeq (map (fun _ => Map TMap []) l)).
  Proof.
    intros H. unfold docs_node. assert (E : map_res doc_node l = Ok (map (fun _ => Map TMap []) l)).
    { clear H. induction l as [|d l IH]; [reflexivity|]. cbn. cbn in IH. rewrite IH. reflexivity. }
    rewrite E. reflexivity.
  Qed.

  Lemma docs_read l : Forall (fun d => d = new_doc) l -> Forall2 describes_doc (map (fun _ => Map TMap []) l) l.
  Proof.
    intros H. induction H as [|d l -> _ IH]; [constructor|]. cbn [map]. constructor; [|exact IH].
    apply doc_describes. reflexivity.
  Qed.
End Pieces.

Section ApiBack.
  Context {F : FloatIO}.

  Lemma opt_back {A} (s : string) (o : option A) (w : A -> node) (f : afield) (R : aty f -> Prop) (d : aty f) :
    api_mine f (str_node s, match o with Some x => w x | None => null_node end) = true ->
    (o = None -> R d) -> (forall x, o = Some x -> exists v, api_step f d (str_node s, w x) = Ok v /\ R v) ->
    exists l, Forall2 wrote (opt_seg s (option_map (fun x => Ok (w x)) o)) l /\ (forall e, In e l -> api_mine f e = true) /\
      exists v, fold_res (api_step f) d l = Ok v /\ R v.
  Proof.
    intros Hm H0 H1. destruct o as [x|].
    - destruct (H1 x eq_refl) as [v [E Hv]]. exists [(str_node s, w x)]. split; [|split].
      + constructor; [split; reflexivity|constructor].
      + intros e [<-|[]]. exact Hm.
      + exists v. split; [cbn [fold_res]; rewrite E; reflexivity|exact Hv].
    - exists []. split; [constructor|]. split; [intros e []|]. exists d. split; [reflexivity|apply H0; reflexivity].
  Qed.

  Lemma api_section_mine f s l : In (s, f) api_keys -> (forall p : node * node, In p l -> fst p = str_node s) ->
    forall e, In e l -> api_mine f e = true.
  Proof.
    intros Hi H [k n] He. apply H in He. cbn in He. subst k. destruct (afield_dec f ATypes) as [->|N].
    - rewrite api_mine_types. cbn in Hi. unfold is_types_key, named_key. cbn. intuition (try discriminate); match goal with E : (_, _) = (_, _) |- _ => injection E as <- end; reflexivity.
    - rewrite (api_mine_named f s _ Hi N). unfold named_key. cbn. apply String.eqb_refl.
  Qed.

  Lemma api_back a : api_returns a ->
    exists l a', Forall2 wrote (flat_map (api_seg a) api_order) l /\ fold_res api_assign new_api l = Ok a' /\ same_api a a'.
  Proof.
    intros (Ht & Hd & Hu & Hs & Hb & Htr & Hat & Hrt & Hty & Han & Hre & Hx).
    destruct (parts_round aty aget aset afield_dec api_target api_step api_assign api_assign_step aget_aset_same aget_aset_other
      wrote (api_seg a) api_order (fun f v => same_afield f (aget f a) v) new_api api_order_nodup api_order_all) as [l [a' [A [B C]]]].
    2:{ exists l, a'. auto. }
    intros f. destruct f; cbn [api_seg aget].
    - exists [(str_node "title", str_node (a_title a))]. split; [constructor; [split; reflexivity|constructor]|].
      split; [intros e [<-|[]]; reflexivity|]. eexists. split; [reflexivity|reflexivity].
    - apply (opt_back "version" (a_version a) str_node AVersion); [reflexivity|exact (fun E => E)|]. intros x E. eexists. split; [reflexivity|exact E].
    - apply (opt_back "baseUri" (a_baseURI a) str_node ABaseURI); [reflexivity|exact (fun E => E)|]. intros x E. eexists. split; [reflexivity|exact E].
    - apply (opt_back "description" (a_description a) str_node ADescription); [reflexivity|exact (fun E => E)|]. intros x E. eexists. split; [reflexivity|exact E].
    - apply (opt_back "protocols" (a_protocols a) (fun l => Seq TSeq (map str_node l)) AProtocols); [reflexivity|exact (fun E => E)|].
      intros x E. exists (Some x). split; [|exact E]. apply string_list_step. exists x. split; [apply strings_denoted|reflexivity].
    - apply (opt_back "mediaType" (a_mediaType a) (fun l => Seq TSeq (map str_node l)) AMediaType); [reflexivity|exact (fun E => E)|].
      intros x E. exists (Some x). split; [|exact E]. apply read_media_iff. right. split; [discriminate|]. exists x. split; [apply strings_denoted|reflexivity].
    - cbn [same_afield]. destruct (a_documentation a) as [ds|] eqn:E.
      + cbn in Hd. cbn [option_map opt_seg]. rewrite (docs_written ds Hd). exists [(str_node "documentation", Seq TSeq (map (fun _ => Map TMap []) ds))]. split; [constructor; [split; reflexivity|constructor]|].
        split; [intros e [<-|[]]; reflexivity|]. exists (add_docs None ds). split; [|destruct ds; reflexivity].
        cbn [fold_res api_step snd read_docs seq_fold]. rewrite bind_ret. apply read_docs_fold. exists ds. split; [apply docs_read; exact Hd|reflexivity].
      + exists []. split; [constructor|]. split; [intros e []|]. eexists. split; reflexivity.
    - apply (opt_back "securedBy" (a_securedBy a) (fun l => Seq TSeq (map str_node l)) ASecuredBy); [reflexivity|exact (fun E => E)|].
      intros x E. exists (Some x). split; [|exact E]. apply string_list_step. exists x. split; [apply strings_denoted|reflexivity].
    - destruct (uses_section "uses" _ Hu) as [l [A [B C]]]. exists l. split; [exact A|]. split; [|exact C].
      apply (api_section_mine AUses "uses"); [cbn; tauto|exact B].
    - destruct (untyped_section "securitySchemes" _ Hs) as [l [A [B C]]]. exists l. split; [exact A|]. split; [|exact C].
      apply (api_section_mine ASecuritySchemes "securitySchemes"); [cbn; tauto|exact B].
    - destruct (untyped_section "baseUriParameters" _ Hb) as [l [A [B C]]]. exists l. split; [exact A|]. split; [|exact C].
      apply (api_section_mine ABaseURIParameters "baseUriParameters"); [cbn; tauto|exact B].
    - destruct (untyped_section "traits" _ Htr) as [l [A [B C]]]. exists l. split; [exact A|]. split; [|exact C].
      apply (api_section_mine ATraits "traits"); [cbn; tauto|exact B].
    - destruct (untyped_section "annotationTypes" _ Hat) as [l [A [B C]]]. exists l. split; [exact A|]. split; [|exact C].
      apply (api_section_mine AAnnotationTypes "annotationTypes"); [cbn; tauto|exact B].
    - destruct (untyped_section "resourceTypes" _ Hrt) as [l [A [B C]]]. exists l. split; [exact A|]. split; [|exact C].
      apply (api_section_mine AResourceTypes "resourceTypes"); [cbn; tauto|exact B].
    - destruct (entries_back (api_step AAnnotations) read_annotation untyped_to_yaml (same_map same_value) false (ents (a_annotations a))) as [l [kvs [A [B [C D]]]]].
      + intros m k n w _ H. cbn [api_step snd fst]. rewrite H. reflexivity.
      + apply Ht.
      + eapply Forall_impl; [|exact Han]. intros e [_ H]. apply ann_written in H as [n [w [H1 [H2 H3]]]]. eauto.
      + exists l. split; [exact A|]. split.
        * intros [k n] He. destruct (B _ He) as [s [E Hi]]. cbn in E. subst k. rewrite api_mine_annotations. cbn.
          apply keys_in in Hi as [v Hi]. rewrite Forall_forall in Han. apply Han in Hi as [Hi _]. exact Hi.
        * exists (mkMap kvs false). split; [exact C|]. exact D.
    - assert (Hx' : Forall (fun e : gkey * gval => key_returns (fst e) /\ has_node (snd e)) (ents (a_extra a))).
      { eapply Forall_impl; [|exact Hx]. intros e [H1 [H2 _]]. auto. }
      destruct (extras_back false (ents (a_extra a)) (proj1 (proj2 Ht)) Hx') as [l [kvs [A [B [C D]]]]].
      exists l. split; [exact A|]. split; [|exists (mkMap kvs false); split; [exact C|exact D]].
      intros e He. destruct (B e He) as [k [_ [E Hi]]]. rewrite api_mine_extra. unfold api_extra_key, is_annotation_key, is_resource_key.
      destruct (is_string (fst e)) eqn:Es; [|reflexivity]. cbn [andb].
      assert (Ek : k = KStr (value (fst e))).
      { destruct (fst e) as [t v| |]; try discriminate E. destruct t; try discriminate Es. cbn in E. injection E as <-. reflexivity. }
      apply keys_in in Hi as [v Hi]. unfold extras_return in Hx. rewrite Forall_forall in Hx. destruct (Hx _ Hi) as [_ [_ Hb']].
      specialize (Hb' _ Ek). generalize dependent (value (fst e)). intros s Ek Hb'. apply negb_true_iff. apply orb_false_iff. split; [apply orb_false_iff; split|].
      + change (starts_paren s = false). destruct (starts_paren s); tauto.
      + change (starts_slash s = false). destruct (starts_slash s); tauto.
      + destruct (existsb (String.eqb s) ("" :: api_names)) eqn:X; [|reflexivity]. apply existsb_exists in X as [y [X1 X2]]. apply String.eqb_eq in X2. subst y.
        exfalso. apply Hb'. destruct X1 as [X1|X1]; auto.
    - destruct (entries_back (api_step AResources) (fun n => Ok (GNode n)) to_node same_value false (ents (a_resources a))) as [l [kvs [A [B [C D]]]]].
      + intros m k n w _ H. injection H as <-. reflexivity.
      + apply Ht.
      + eapply Forall_impl; [|exact Hre]. intros e [_ [n H]]. exists n, (GNode n). split; [exact H|]. split; [reflexivity|]. exists n. auto.
      + exists l. split; [exact A|]. split.
        * intros [k n] He. destruct (B _ He) as [s [E Hi]]. cbn in E. subst k. rewrite api_mine_resources. cbn.
          apply keys_in in Hi as [v Hi]. rewrite Forall_forall in Hre. apply Hre in Hi as [Hi _]. exact Hi.
        * exists (mkMap kvs false). split; [exact C|]. exact D.
    - destruct (types_section "types" _ Hty) as [l [A [B C]]]. exists l. split; [exact A|]. split; [|exact C].
      apply (api_section_mine ATypes "types"); [cbn; tauto|exact B].
  Qed.

  Lemma api_round_trip a : api_returns a -> exists n a', api_marshal a = Ok n /\ api_unmarshal n new_api = Ok a' /\ same_api a a'.
  Proof.
    intros H. destruct (api_back a H) as [l [a' [A [B C]]]]. exists (Map TMap l), a'. split; [|split; [exact B|exact C]].
    apply api_written_iff; [exact (proj1 H)|]. eauto.
  Qed.
End ApiBack.
