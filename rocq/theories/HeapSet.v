(** A setter through a reference is the setter on the value, in every place (C63). *)
From Coq Require Import SpecFloat Relations Lia.
From Verif Require Import Base Num OMap OMapSpec Keys Yaml Values Assign Formats Meta Out Xml Example DataType Marshal Doc Api Library Setters Heap
  AssignProofs TypeFacts Fields FieldProofs FacetSpec FacetProofs DocProofs TypeWrite OrderProofs PathProofs HeapSpec HeapProofs HeapEdit.

Lemma same_call_changes w h r op a : same_call w h r op -> changes h a -> a = AType r.
Proof. destruct h as [| |k|r' op'|r' [i|]|r' [m|]|r' [f|]|m e|f e]; cbn; intros H C; try contradiction; destruct H as [-> _]; exact C. Qed.

Lemma same_call_agree w h r op a : same_call w h r op -> a <> AType r -> exists_in w a -> agree w (h_apply h w) a.
Proof. intros H N E. apply op_agree; [|exact E]. intros C. apply N. exact (same_call_changes _ _ _ _ _ H C). Qed.

Lemma tree_away w h r op n r1 : same_call w h r op -> complete w (AType r1) -> ~ below w (AType r1) (AType r) -> tree n (h_apply h w) r1 = tree n w r1.
Proof. intros H C N. apply tree_agree. intros a Ha. apply (same_call_agree _ _ _ _ _ H); [intros ->; exact (N Ha)|exact (C a Ha)]. Qed.

Lemma maps_kept w h r op fm fs : same_call w h r op -> map_some (nth_error (w_maps w)) fm = Some fs -> map_some (nth_error (w_maps (h_apply h w))) fm = Some fs.
Proof.
  intros H. apply map_some_more. intros e mm _ E. rewrite <- E. apply (same_call_agree _ _ _ _ (AMap (snd e)) H); [discriminate|exact (nth_exists _ _ _ E)].
Qed.

Lemma load_spec_kept w h r op s sp : same_call w h r op -> load_spec w s = Some sp -> load_spec (h_apply h w) s = Some sp.
Proof.
  intros H. destruct s as [u mn mx it|p mn mx ad di dv|s]; cbn [load_spec]; auto. intros E. destruct (nth_error (w_maps w) p) as [mm|] eqn:Ep; [|discriminate].
  rewrite (same_call_agree _ _ _ _ (AMap p) H); [rewrite Ep; exact E|discriminate|exact (nth_exists _ _ _ Ep)].
Qed.

Lemma load_kept w h r op r0 sh : same_call w h r op -> r0 <> r -> load w r0 = Some sh -> load (h_apply h w) r0 = Some sh.
Proof.
  intros H N L. apply load_inv in L as [[b [Hr ->]]|[b [x [f [c [s [fm [fs [sp [H1 [H2 [H3 [H4 ->]]]]]]]]]]]]]; unfold load.
  - rewrite (same_call_agree _ _ _ _ (AType r0) H); [rewrite Hr; reflexivity|congruence|exact (nth_exists _ _ _ Hr)].
  - rewrite (same_call_agree _ _ _ _ (AType r0) H); [rewrite H1; cbn [obind]|congruence|exact (nth_exists _ _ _ H1)].
    rewrite (same_call_agree _ _ _ _ (AFacets f) H); [rewrite H2; cbn [obind]|discriminate|exact (nth_exists _ _ _ H2)].
    rewrite (maps_kept _ _ _ _ _ _ H H3). cbn [obind]. rewrite (load_spec_kept _ _ _ _ _ _ H H4). reflexivity.
Qed.

(** The facets and the parts of the kind, in the changed world. *)
Lemma facets_kept w h r op n fs ds : same_call w h r op -> map_some (map_some (tree n w)) fs = Some ds ->
  (forall e e', In e (ents fs) -> In e' (ents (snd e)) -> ~ below w (AType (snd e')) (AType r)) -> map_some (map_some (tree n (h_apply h w))) fs = Some ds.
Proof.
  intros H E N. rewrite <- E. apply map_some_ext. intros e He. apply map_some_ext. intros e' He'. apply (tree_away _ _ _ _ _ _ H); [|exact (N e e' He He')].
  destruct (map_some_each _ _ _ _ E He) as [ds' [Ed _]]. destruct (map_some_each _ _ _ _ Ed He') as [d [Hd _]]. exact (proj2 (tree_fine _ _ _ _ Hd)).
Qed.

Lemma spec_kept w h r op n s s' : same_call w h r op -> in_spec (tree n w) s = Some s' -> (forall r1, In r1 (spec_parts s) -> ~ below w (AType r1) (AType r)) ->
  in_spec (tree n (h_apply h w)) s = Some s'.
Proof.
  intros H E N. destruct s as [|u mn mx [i|]| | | | |ps mn mx ad di dv|]; cbn [in_spec] in *; try exact E.
  - destruct (tree n w i) as [d|] eqn:T; [|discriminate]. rewrite (tree_away _ _ _ _ _ _ H), T; [exact E|exact (proj2 (tree_fine _ _ _ _ T))|].
    apply N. left. reflexivity.
  - destruct (map_some (tree n w) ps) as [qs|] eqn:Q; [|discriminate].
    rewrite (map_some_ext (tree n (h_apply h w)) (tree n w) ps); [rewrite Q; exact E|]. intros e He. apply (tree_away _ _ _ _ _ _ H).
    + destruct (map_some_each _ _ _ _ Q He) as [d [Hd _]]. exact (proj2 (tree_fine _ _ _ _ Hd)).
    + apply N. cbn. apply in_map. exact He.
Qed.

Lemma deeper_facets n n' w fs ds : (n <= n')%nat -> map_some (map_some (tree n w)) fs = Some ds -> map_some (map_some (tree n' w)) fs = Some ds.
Proof. intros L. apply map_some_more. intros e b _. apply map_some_more. intros e' b' _. apply tree_deeper. exact L. Qed.

Lemma deeper_spec n n' w s s' : (n <= n')%nat -> in_spec (tree n w) s = Some s' -> in_spec (tree n' w) s = Some s'.
Proof. intros L. apply in_spec_more. intros a b. apply tree_deeper. exact L. Qed.

(** The kinds of a definition, by reference and by value. *)
Lemma array_value n w u mn mx it sp s' : load_spec w (HArray u mn mx it) = Some sp -> in_spec (tree n w) sp = Some s' -> exists j, s' = SArray u mn mx j.
Proof. cbn [load_spec]. intros H E. injection H as <-. cbn [in_spec] in E. destruct it as [i|]; [destruct (tree n w i); [|discriminate]|]; injection E as <-; eauto. Qed.

Lemma object_value n w p mn mx ad di dv sp s' : load_spec w (HObject p mn mx ad di dv) = Some sp -> in_spec (tree n w) sp = Some s' -> exists ps, s' = SObject ps mn mx ad di dv.
Proof.
  cbn [load_spec]. intros H E. destruct (nth_error (w_maps w) p) as [mm|]; [|discriminate]. injection H as <-. cbn [in_spec] in E.
  destruct (map_some (tree n w) mm) as [qs|]; [|discriminate]. injection E as <-. eauto.
Qed.

Lemma other_value n w s sp s' op : load_spec w (HOther s) = Some sp -> in_spec (tree n w) sp = Some s' ->
  match op with TSetItems _ | TSetProperties _ => True | _ => False end -> spec_apply op s' = s'.
Proof.
  cbn [load_spec]. intros H E Ho. injection H as <-. destruct s as [|u mn mx it|fm|ft mn mx|fm mn mx mu|fm mn mx mu|ps mn mx ad di dv|p mn mx]; cbn [other_spec in_spec] in E; injection E as <-; destruct op; try destruct Ho; reflexivity.
Qed.

Lemma set_here w h r op n d : same_call w h r op -> tree n w r = Some d -> exists n', tree n' (h_apply h w) r = Some (type_apply op d).
Proof.
  intros H T. destruct n as [|n]; [discriminate|]. pose proof (tree_no_loop _ _ _ _ T) as NL.
  pose proof T as T0. apply tree_inv in T as [[b [L ->]]|[b [x [f [c [s [f' [s' [L [Ef [Es ->]]]]]]]]]]].
  { exists 1%nat. apply load_inv in L as [[b' [Hr X]]|[b' [x [f [c [s [fm [fs [sp [H1 [_ [_ [_ X]]]]]]]]]]]]]; [|discriminate]. injection X as ->.
    assert (E : nth_error (w_types (h_apply h w)) r = Some (HBase b')).
    { destruct h as [| |k|r' op'|r' [i|]|r' [m|]|r' [ff|]|m e|ff e]; cbn [same_call] in H; try contradiction; destruct H as [-> H]; cbn [h_apply]; rewrite Hr; try exact Hr.
      cbn [put_type w_types htype_apply]. exact (set_nth_same _ _ _ _ Hr). }
    cbn [tree]. unfold load. rewrite E. reflexivity. }
  assert (PN : forall r1, In r1 (parts (ShExt b x f c s)) -> ~ below w (AType r1) (AType r)).
  { intros r1 Hp B. apply NL. eapply strictly_below_trans; [eapply parts_below; eassumption|exact B]. }
  assert (NF : forall e e', In e (ents f) -> In e' (ents (snd e)) -> ~ below w (AType (snd e')) (AType r)).
  { intros e e' He He'. apply PN. cbn [parts]. apply in_or_app. left. apply in_flat_map. exists e. split; [exact He|apply in_map; exact He']. }
  assert (NS : forall r1, In r1 (spec_parts s) -> ~ below w (AType r1) (AType r)) by (intros r1 Hr1; apply PN; cbn [parts]; apply in_or_app; right; exact Hr1).
  apply load_inv in L as [[b1 [_ X]]|[b1 [x1 [f1 [c1 [s1 [fm [fs [sp [H1 [H2 [H3 [H4 X]]]]]]]]]]]]]; [discriminate|]. injection X as -> -> -> -> ->.
  (* what a new pair of facets and kind gives *)
  assert (Done : forall b2 x2 g c2 s2 gm gs sq ds s3 n2, nth_error (w_types (h_apply h w)) r = Some (HExt b2 x2 g c2 s2) -> nth_error (w_facets (h_apply h w)) g = Some gm ->
    map_some (nth_error (w_maps (h_apply h w))) gm = Some gs -> load_spec (h_apply h w) s2 = Some sq -> map_some (map_some (tree n2 (h_apply h w))) gs = Some ds ->
    in_spec (tree n2 (h_apply h w)) sq = Some s3 -> exists n', tree n' (h_apply h w) r = Some (TExt b2 x2 ds c2 s3)).
  { intros b2 x2 g c2 s2 gm gs sq ds s3 n2 G1 G2 G3 G4 G5 G6. exists (S n2). cbn [tree]. unfold load. rewrite G1. cbn [obind]. rewrite G2. cbn [obind]. rewrite G3. cbn [obind].
    rewrite G4. cbn [obind]. rewrite G5. cbn [obind]. rewrite G6. reflexivity. }
  assert (KF : nth_error (w_facets (h_apply h w)) f1 = Some fm) by (rewrite <- H2; apply (same_call_agree _ _ _ _ (AFacets f1) H); [discriminate|exact (nth_exists _ _ _ H2)]).
  pose proof (maps_kept _ _ _ _ _ _ H H3) as KM. pose proof (load_spec_kept _ _ _ _ _ _ H H4) as KS.
  pose proof (fun n2 E => facets_kept w h r op n2 fs f' H E NF) as KFs. pose proof (fun n2 E => spec_kept w h r op n2 sp s' H E NS) as KSp.
  (* a call of a setter the kind does not have *)
  assert (Same : nth_error (w_types (h_apply h w)) r = Some (HExt b1 x1 f1 c1 s1) -> exists n', tree n' (h_apply h w) r = Some (TExt b1 x1 f' c1 s')).
  { intros G. exact (Done b1 x1 f1 c1 s1 fm fs sp f' s' n G KF KM KS (KFs n Ef) (KSp n Es)). }
  assert (NA : forall u mn mx it, s1 = HArray u mn mx it -> exists j, s' = SArray u mn mx j) by (intros u mn mx it ->; exact (array_value _ _ _ _ _ _ _ _ H4 Es)).
  assert (NO : forall p mn mx ad di dv, s1 = HObject p mn mx ad di dv -> exists ps, s' = SObject ps mn mx ad di dv) by (intros p mn mx ad di dv ->; exact (object_value _ _ _ _ _ _ _ _ _ _ H4 Es)).
  assert (NX : forall s0 op, s1 = HOther s0 -> match op with TSetItems _ | TSetProperties _ => True | _ => False end -> spec_apply op s' = s') by (intros s0 op0 ->; exact (other_value _ _ _ _ _ _ H4 Es)).
  destruct h as [| |k|r' op'|r' [i|]|r' [m|]|r' [ff|]|m e|ff e]; pose proof H as H0; cbn [same_call] in H; try contradiction.
  - destruct H as [-> [-> Ht]]. exists (S n). exact (setter_here _ _ _ _ _ Ht T0).
  - destruct H as [-> [n1 [d1 [-> [T1 N1]]]]]. cbn [type_apply facets_apply]. destruct s1 as [u mn mx it|p mn mx ad di dv|s1].
    + destruct (NA _ _ _ _ eq_refl) as [j ->]. eapply (Done b1 x1 f1 c1 (HArray u mn mx (Some i)) fm fs _ f' _ (n + n1)%nat); [|exact KF|exact KM|reflexivity| |].
      * cbn [h_apply]. rewrite H1. cbn [put_type w_types]. exact (set_nth_same _ _ _ _ H1).
      * apply KFs. apply (deeper_facets n); [lia|exact Ef].
      * cbn [in_spec]. rewrite (tree_away _ _ _ _ _ _ H0 (proj2 (tree_fine _ _ _ _ T1)) N1). rewrite (tree_deeper n1 w i d1 (n + n1) ltac:(lia) T1). reflexivity.
    + destruct (NO _ _ _ _ _ _ eq_refl) as [ps ->]. apply Same. cbn [h_apply]. rewrite H1. exact H1.
    + rewrite (NX s1 (TSetItems (Some d1)) eq_refl I). apply Same. cbn [h_apply]. rewrite H1. exact H1.
  - destruct H as [-> ->]. cbn [type_apply facets_apply]. destruct s1 as [u mn mx it|p mn mx ad di dv|s1].
    + destruct (NA _ _ _ _ eq_refl) as [j ->]. eapply (Done b1 x1 f1 c1 (HArray u mn mx None) fm fs _ f' _ n); [|exact KF|exact KM|reflexivity|exact (KFs n Ef)|reflexivity].
      cbn [h_apply]. rewrite H1. cbn [put_type w_types]. exact (set_nth_same _ _ _ _ H1).
    + destruct (NO _ _ _ _ _ _ eq_refl) as [ps ->]. apply Same. cbn [h_apply]. rewrite H1. exact H1.
    + rewrite (NX s1 (TSetItems None) eq_refl I). apply Same. cbn [h_apply]. rewrite H1. exact H1.
  - destruct H as [-> [n1 [mm [ds [-> [Hm [Td N1]]]]]]]. cbn [type_apply facets_apply]. destruct s1 as [u mn mx it|p mn mx ad di dv|s1].
    + destruct (NA _ _ _ _ eq_refl) as [j ->]. apply Same. cbn [h_apply]. rewrite H1. exact H1.
    + destruct (NO _ _ _ _ _ _ eq_refl) as [ps ->]. eapply (Done b1 x1 f1 c1 (HObject m mn mx ad di dv) fm fs (SObject mm mn mx ad di dv) f' _ (n + n1)%nat); [|exact KF|exact KM| | |].
      * cbn [h_apply]. rewrite H1. cbn [put_type w_types]. exact (set_nth_same _ _ _ _ H1).
      * cbn [load_spec]. rewrite (same_call_agree _ _ _ _ (AMap m) H0); [rewrite Hm; reflexivity|discriminate|exact (nth_exists _ _ _ Hm)].
      * apply KFs. apply (deeper_facets n); [lia|exact Ef].
      * cbn [in_spec]. rewrite (map_some_ext _ (tree (n + n1) w) mm).
        2:{ intros e He. apply (tree_away _ _ _ _ _ _ H0).
            - destruct (map_some_each _ _ _ _ Td He) as [d [Hd _]]. exact (proj2 (tree_fine _ _ _ _ Hd)).
            - intros B. apply N1. destruct e as [k0 v0]. eapply rt_trans; [apply rt_step; eapply holds_type; eassumption|exact B]. }
        rewrite (map_some_more (tree n1 w) (tree (n + n1) w) mm ds); [reflexivity| |exact Td]. intros e d0 _. apply tree_deeper. lia.
    + rewrite (NX s1 (TSetProperties (Some ds)) eq_refl I). apply Same. cbn [h_apply]. rewrite H1. exact H1.
  - destruct H as [-> ->]. cbn [type_apply facets_apply]. destruct s1 as [u mn mx it|p mn mx ad di dv|s1].
    + destruct (NA _ _ _ _ eq_refl) as [j ->]. apply Same. cbn [h_apply]. rewrite H1. exact H1.
    + destruct (NO _ _ _ _ _ _ eq_refl) as [ps ->]. eapply (Done b1 x1 f1 c1 (HObject (List.length (w_maps w)) mn mx ad di dv) fm fs (SObject blank mn mx ad di dv) f' _ n); [|exact KF|exact KM| |exact (KFs n Ef)|reflexivity].
      * cbn [h_apply]. rewrite H1. cbn [put_type w_types new_at_end_map]. exact (set_nth_same _ _ _ _ H1).
      * cbn [load_spec h_apply]. rewrite H1. cbn [put_type w_maps new_at_end_map]. rewrite nth_error_app2, Nat.sub_diag by lia. reflexivity.
    + rewrite (NX s1 (TSetProperties None) eq_refl I). apply Same. cbn [h_apply]. rewrite H1. exact H1.
  - destruct H as [-> [n1 [gm [gs [ds [-> [Hg [Hs [Td N1]]]]]]]]]. cbn [type_apply facets_apply or_blank].
    replace (spec_apply (TSetFacetDefinitions (Some ds)) s') with s' by (destruct s'; reflexivity).
    eapply (Done b1 x1 ff c1 s1 gm gs sp ds s' (n + n1)%nat); [| |exact (maps_kept _ _ _ _ _ _ H0 Hs)|exact KS| |].
    + cbn [h_apply]. rewrite H1. cbn [put_type w_types]. exact (set_nth_same _ _ _ _ H1).
    + rewrite <- Hg. apply (same_call_agree _ _ _ _ (AFacets ff) H0); [discriminate|exact (nth_exists _ _ _ Hg)].
    + eapply (facets_kept _ _ _ _ _ _ _ H0); [apply (deeper_facets n1); [lia|exact Td]|]. intros e e' He He' B. apply N1.
      apply map_some_iff in Hs as [_ Hs]. clear - Hg Hs He He' B. assert (X : exists m, In (fst e, m) (ents gm) /\ nth_error (w_maps w) m = Some (snd e)).
      { revert He. induction Hs as [|a b0 l l' [Q1 Q2] _ IH]; [intros []|]. intros [<-|He]; [exists (snd a); split; [left; destruct a; cbn in *; congruence|exact Q2]|].
        destruct (IH He) as [m [I1 I2]]. exists m. split; [right; exact I1|exact I2]. }
      destruct X as [m [I1 I2]]. destruct e' as [k0 v0]. eapply rt_trans; [apply rt_step; eapply holds_map; eassumption|]. eapply rt_trans; [apply rt_step; eapply holds_type; eassumption|exact B].
    + apply KSp. apply (deeper_spec n); [lia|exact Es].
  - destruct H as [-> ->]. cbn [type_apply facets_apply or_blank]. replace (spec_apply (TSetFacetDefinitions None) s') with s' by (destruct s'; reflexivity).
    eapply (Done b1 x1 (List.length (w_facets w)) c1 s1 blank blank sp blank s' n); [| |reflexivity|exact KS|reflexivity|exact (KSp n Es)].
    + cbn [h_apply]. rewrite H1. cbn [put_type w_types new_at_end_facets]. exact (set_nth_same _ _ _ _ H1).
    + cbn [h_apply]. rewrite H1. cbn [put_type w_facets new_at_end_facets]. rewrite nth_error_app2, Nat.sub_diag by lia. reflexivity.
Qed.

(** The tree of everything above is still there. *)
Lemma set_keeps_tree w h r op n0 dr : same_call w h r op -> tree n0 (h_apply h w) r = Some dr ->
  forall n r0 d, tree n w r0 = Some d -> exists d2, tree (n + n0) (h_apply h w) r0 = Some d2.
Proof.
  intros H T0. induction n as [|n IH]; intros r0 d T; [discriminate|]. destruct (Nat.eq_dec r0 r) as [->|N].
  - exists dr. apply (tree_deeper n0); [lia|exact T0].
  - assert (L : exists sh, load w r0 = Some sh) by (cbn [tree] in T; destruct (load w r0); [eauto|discriminate]). destruct L as [sh L].
    apply (tree_of_parts _ (n + n0) r0 sh (load_kept _ _ _ _ _ _ H N L)). intros r1 Hp. destruct (tree_parts n w r0 d sh r1 T L Hp) as [d1 T1]. exact (IH r1 d1 T1).
Qed.

Lemma ref_hop_kept w h r op p r0 r1 : same_call w h r op -> r0 <> r -> ref_hop w p r0 = Some r1 -> ref_hop (h_apply h w) p r0 = Some r1.
Proof.
  intros H N. unfold ref_hop. destruct (nth_error (w_types w) r0) as [t|] eqn:E; [|discriminate].
  rewrite (same_call_agree _ _ _ _ (AType r0) H); [rewrite E|congruence|exact (nth_exists _ _ _ E)].
  destruct t as [b|b x f c [u mn mx it|m mn mx ad di dv|s]]; auto. destruct p as [|name]; auto.
  destruct (nth_error (w_maps w) m) as [mm|] eqn:Em; [|discriminate]. rewrite (same_call_agree _ _ _ _ (AMap m) H); [rewrite Em; auto|discriminate|exact (nth_exists _ _ _ Em)].
Qed.

Lemma set_every_place w h r op : same_call w h r op -> forall ps n r0 d, tree n w r0 = Some d -> ref_walk w ps r0 = Some r ->
  exists d' n' d2, walk ps d = Some d' /\ tree n' (h_apply h w) r0 = Some d2 /\ walk ps d2 = Some (type_apply op d').
Proof.
  intros H. induction ps as [|p ps IH]; intros n r0 d T Hw; cbn [ref_walk] in Hw.
  - injection Hw as ->. destruct (set_here _ _ _ _ _ _ H T) as [n' T']. exists d, n', (type_apply op d). auto.
  - destruct (ref_hop w p r0) as [r1|] eqn:Hp; [|discriminate]. cbn [obind] in Hw. destruct n as [|n]; [discriminate|].
    destruct (hop_tree n w r0 d p r1 T Hp) as [d1 [D1 [T1 B1]]]. destruct (IH n r1 d1 T1 Hw) as [d' [n' [d2 [W1 [W2 W3]]]]].
    destruct (walk_tree ps n w r1 d1 r T1 Hw) as [dr [_ [Tr B2]]].
    assert (N : r0 <> r) by (intros ->; apply (tree_no_loop _ _ _ _ T); eapply strictly_below_trans; eassumption).
    destruct (set_here _ _ _ _ _ _ H Tr) as [n0 Tr'].
    destruct (set_keeps_tree _ _ _ _ _ _ H Tr' (S n) r0 d T) as [d3 T3]. exists d', (S n + n0)%nat, d3. split; [cbn [walk]; rewrite D1; exact W1|]. split; [exact T3|].
    destruct (hop_tree (n + n0) _ r0 d3 p r1 T3 (ref_hop_kept _ _ _ _ _ _ _ H N Hp)) as [d4 [D4 [T4 _]]].
    cbn [walk]. rewrite D4. assert (E : d4 = d2).
    { assert (X : forall a, (n' <= a)%nat -> (n + n0 <= a)%nat -> d4 = d2); [|exact (X (n' + (n + n0))%nat ltac:(lia) ltac:(lia))].
      intros a L1 L2. apply (tree_deeper _ _ _ _ _ L1) in W2. apply (tree_deeper _ _ _ _ _ L2) in T4. congruence. }
    rewrite E. exact W3.
Qed.
