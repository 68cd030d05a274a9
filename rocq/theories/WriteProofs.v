(** C33, C34: the form of what is written. *)
From Coq Require Import SpecFloat.
From Verif Require Import Base Num OMap OMapSpec Keys Yaml Values Assign Formats Meta Out Xml Example DataType Marshal
  AssignProofs TypeFacts Fields FieldProofs FacetSpec FacetProofs DocProofs OrderProofs PathProofs Segs ExProofs Same ExRound TypeSegs WriteSpec.

Section Write.
  Context {F : FloatIO}.
  Variable ty : dtype -> res node.

  (** The node written for the value of a field; none if it is not written. *)
  Definition written (k : dkind) (f : field) (v : fval) : option (res node) :=
    match v with
    | VStr s => Some (Ok match k with TyInclude => Scal TInclude s | _ => str_node s end)
    | VOptStr o => str_opt o
    | VBool b => if is_default k f v then None else Some (Ok (bool_node b))
    | VInt z => if match k, f with TyString, FMinLength => negb (0 <? z)%Z | _, _ => is_default k f v end then None else Some (Ok (int_node z))
    | VOptInt o => int_opt o
    | VOptFloat o => float_opt o
    | VStrs o => option_map (fun l => Ok (Seq TSeq (map str_node l))) o
    | VOptVal o => option_map to_node o
    | VVals o => option_map (fun l => to_node (GList l)) o
    | VOptType o => option_map ty o
    | VTypes m => if nonempty m then Some (types_to_yaml ty m) else None
    | VFacets m => if nonempty m then Some (facets_to_yaml ty m) else None
    | VXml o => option_map xml_node o
    | VEx o => option_map ex_to_yaml o
    | VExs m => if nonempty m then Some (examples_to_yaml m) else None
    | VAnns _ | VExtra _ => None
    end.

  Definition field_segs (d : dtype) (f : field) : outm :=
    match getf f d with
    | None => []
    | Some (VExtra m) => all_seg (fun k => k) to_node (ents m)
    | Some (VAnns m) => all_seg KStr untyped_to_yaml (ents m)
    | Some v => opt_seg (written_key f) (written (d_kind d) f v)
    end.

  Lemma if_opt_seg (c : bool) k r : if_seg c k r = opt_seg k (if c then Some r else None).
  Proof. destruct c; reflexivity. Qed.
  Lemma if_opt_seg_neg (c : bool) k r : if_seg (negb c) k r = opt_seg k (if c then None else Some r).
  Proof. destruct c; reflexivity. Qed.

  Lemma shaped_cases b x f c s : shaped (TExt b x f c s) -> b_kind b <> TyNil /\ b_kind b <> TyInclude /\
    same_spec s (new_spec (b_kind b)) = true.
  Proof. unfold shaped, d_kind. cbn. destruct (b_kind b); cbn; intros H; repeat split; try discriminate; exact H. Qed.

  Lemma segs_fields d : shaped d -> segs ty d = flat_map (field_segs d) (write_order (d_kind d)).
  Proof.
    intros H. destruct d as [b|b x f c s].
    - unfold segs, field_segs, extra_segs, type_node. cbn [head_segs ann_segs required_seg tail_segs d_base getf app].
      unfold shaped, d_kind in *. cbn [d_base] in *.
      destruct (b_kind b) eqn:E; try discriminate H; cbn [write_order flat_map]; cbn [getf opt_seg written written_key]; rewrite !app_nil_r;
        unfold opt_seg, d_kind; cbn; rewrite ?E, ?app_nil_r; reflexivity.
    - destruct (shaped_cases b x f c s H) as [N1 [N2 Hs]].
      assert (E0 : write_order (d_kind (TExt b x f c s)) =
        [FDefault; FDisplay; FDescr; FType; FExtra; FRequired; FAnns; FFacets; FXml] ++ own_order (b_kind b) ++ [FEnum; FExample; FExamples]).
      { unfold d_kind. cbn [d_base]. destruct (b_kind b); try congruence; reflexivity. }
      rewrite E0, !flat_map_app. unfold segs. cbn [head_segs ann_segs required_seg tail_segs d_base].
      cbn [flat_map]. unfold field_segs at 1 2 3 4 5 6 7 8 9. cbn [getf].
      assert (E1 : spec_segs ty s = flat_map (field_segs (TExt b x f c s)) (own_order (b_kind b))).
      { destruct (b_kind b) eqn:Ek; try congruence; cbn in Hs; destruct s; try discriminate Hs; cbn [own_order flat_map spec_segs];
          unfold field_segs, d_kind; cbn [getf get_spec written_key facet_key d_base]; rewrite ?Ek; cbn [written];
          rewrite ?app_nil_r; try reflexivity;
          rewrite ?if_opt_seg_neg, ?if_opt_seg; cbn [is_default default_value].
        - rewrite (Z.eqb_sym minItems 0), (Z.eqb_sym maxItems 2147483647). destruct unique; reflexivity.
        - rewrite (Z.eqb_sym minLength 0), (Z.eqb_sym maxLength 2147483647). reflexivity.
        - destruct addtlProps; reflexivity.
        - destruct (0 <? minLength)%Z; reflexivity. }
      rewrite E1. unfold field_segs at 2 3 4. cbn [getf flat_map]. cbn [written].
      rewrite ?if_opt_seg_neg, ?if_opt_seg, ?app_nil_r, <- ?app_assoc.
      assert (E2 : opt_seg "type" (Some (Ok (type_node b))) = opt_seg "type" (Some (Ok match b_kind b with TyInclude => Scal TInclude (b_schema b) | _ => str_node (b_schema b) end))) by (unfold type_node; reflexivity).
      assert (E3 : forall r : res node, (if x_required x then None else Some r) = (if is_default (d_kind (TExt b x f c s)) FRequired (VBool (x_required x)) then None else Some r)).
      { intros r. cbn. destruct (x_required x); reflexivity. }
      rewrite E3. reflexivity.
  Qed.

  Lemma opt_keys k v : map fst (opt_seg k v) = match v with Some _ => [KStr k] | None => [] end.
  Proof. destruct v; reflexivity. Qed.

  Lemma get_spec_sort d f v : shaped d -> getf f d = Some v -> same_sort v (default_value (d_kind d) f) = true.
  Proof.
    intros H G. destruct d as [b|b x fs c s].
    - destruct f; try discriminate G; injection G as <-; reflexivity.
    - destruct (shaped_cases b x fs c s H) as [N1 [N2 Hs]]. unfold d_kind. cbn [d_base].
      destruct f; cbn [getf] in G; try (injection G as <-; reflexivity);
        destruct (b_kind b); try congruence; destruct s; try discriminate Hs; try discriminate G; injection G as <-; reflexivity.
  Qed.

  Lemma field_segs_keys d f : shaped d -> (forall z, getf FMinLength d = Some (VInt z) -> (0 <= z)%Z) ->
    map fst (field_segs d f) = field_keys d f.
  Proof.
    intros Hs Hz. unfold field_segs, field_keys. destruct (getf f d) as [v|] eqn:G; [|reflexivity].
    pose proof (get_spec_sort d f v Hs G) as S.
    destruct v; try (rewrite opt_keys; cbn [written]);
      try (rewrite all_seg_keys, ?map_id; reflexivity).
    - destruct f; cbn in S; destruct (d_kind d); try discriminate S; reflexivity.
    - destruct f; cbn in S; destruct (d_kind d); try discriminate S; destruct o; reflexivity.
    - destruct f; cbn in S; destruct (d_kind d); try discriminate S; destruct b; reflexivity.
    - assert (E : (match d_kind d, f with TyString, FMinLength => negb (0 <? z)%Z | _, _ => is_default (d_kind d) f (VInt z) end) =
                  is_default (d_kind d) f (VInt z)).
      { destruct (d_kind d); try reflexivity. destruct f; try reflexivity. specialize (Hz z G). cbn [is_default default_value].
        destruct (Z.ltb_spec 0 z) as [L|L]; destruct (Z.eqb_spec 0 z) as [M|M]; try reflexivity; exfalso; lia. }
      rewrite E. destruct f; cbn in S; destruct (d_kind d); try discriminate S; cbn [is_default default_value];
        match goal with |- context [(?a =? z)%Z] => destruct (a =? z)%Z end; reflexivity.
    - destruct f; cbn in S; destruct (d_kind d); try discriminate S; destruct o; reflexivity.
    - destruct f; cbn in S; destruct (d_kind d); try discriminate S; destruct o; reflexivity.
    - destruct f; cbn in S; destruct (d_kind d); try discriminate S; destruct o; reflexivity.
    - destruct f; cbn in S; destruct (d_kind d); try discriminate S; destruct o; reflexivity.
    - destruct f; cbn in S; destruct (d_kind d); try discriminate S; destruct o; reflexivity.
    - destruct f; cbn in S; destruct (d_kind d); try discriminate S; destruct o; reflexivity.
    - destruct f; cbn in S; destruct (d_kind d); try discriminate S; destruct m as [[|? ?] ?]; reflexivity.
    - destruct f; cbn in S; destruct (d_kind d); try discriminate S; destruct m as [[|? ?] ?]; reflexivity.
    - destruct f; cbn in S; destruct (d_kind d); try discriminate S; destruct o; reflexivity.
    - destruct f; cbn in S; destruct (d_kind d); try discriminate S; destruct o; reflexivity.
    - destruct f; cbn in S; destruct (d_kind d); try discriminate S; destruct m as [[|? ?] ?]; reflexivity.
  Qed.

  Lemma map_flat_map {A B C} (g : B -> C) (h : A -> list B) l : map g (flat_map h l) = flat_map (fun a => map g (h a)) l.
  Proof. induction l as [|a l IH]; simpl; [reflexivity|]. rewrite map_app, IH. reflexivity. Qed.

  Lemma segs_keys d : shaped d -> (forall z, getf FMinLength d = Some (VInt z) -> (0 <= z)%Z) ->
    map fst (segs ty d) = flat_map (field_keys d) (write_order (d_kind d)).
  Proof.
    intros Hs Hz. rewrite segs_fields by exact Hs. rewrite map_flat_map. apply flat_map_ext. intros f. apply field_segs_keys; assumption.
  Qed.

  Lemma apart_flat_map {A} (h : A -> list gkey) l : NoDup l -> (forall f, In f l -> apart (h f) = true) ->
    (forall f g a b, In f l -> In g l -> f <> g -> In a (h f) -> In b (h g) -> gkey_eqb a b = false) ->
    apart (flat_map h l) = true.
  Proof.
    induction l as [|f l IH]; intros Hn H1 H2; [reflexivity|]. inversion Hn as [|x y Hx Hy]; subst. cbn. apply apart_app.
    split; [apply H1; left; reflexivity|]. split.
    - apply IH; [exact Hy|intros; apply H1; right; assumption|]. intros f' g' a b Hf Hg. apply H2; right; assumption.
    - intros a b Ha Hb. apply in_flat_map in Hb as [g [Hg Hb]]. apply (H2 f g); try assumption; [left; reflexivity|right; exact Hg|].
      intros ->. contradiction.
  Qed.

  Lemma write_order_nodup k : NoDup (write_order k).
  Proof. destruct k; cbn; repeat constructor; cbn; intuition discriminate. Qed.

  Lemma write_order_names k f g : In f (write_order k) -> In g (write_order k) -> f <> FExtra -> f <> FAnns -> g <> FExtra -> g <> FAnns ->
    written_key f = written_key g -> f = g.
  Proof.
    intros _ _ F1 F2 G1 G2. destruct f; try congruence; destruct g; try congruence; cbn; discriminate.
  Qed.

  (** The keys of one field. *)
  Lemma field_keys_in d f a : shaped d -> In a (field_keys d f) ->
    (f = FExtra /\ In a (extra_keys d)) \/ (f = FAnns /\ exists s, a = KStr s /\ In s (ann_keys_of d)) \/
    (f <> FExtra /\ f <> FAnns /\ a = KStr (written_key f)).
  Proof.
    intros Hs H. unfold field_keys in H. destruct (getf f d) as [v|] eqn:G; [|destruct H].
    pose proof (get_spec_sort d f v Hs G) as S. unfold extra_keys, ann_keys_of.
    destruct (field_dec f FExtra) as [->|N1].
    { left. split; [reflexivity|]. rewrite getf_extra in G. injection G as <-. exact H. }
    destruct (field_dec f FAnns) as [->|N2].
    { right; left. split; [reflexivity|]. rewrite G. destruct v; try (cbn in S; destruct (d_kind d); discriminate S).
      apply in_map_iff in H as [s [<- H]]. eauto. }
    right; right. split; [exact N1|]. split; [exact N2|].
    destruct v; try (destruct f; try congruence; cbn in S; destruct (d_kind d); discriminate S);
      destruct f; try congruence; try (destruct H as [<-|[]]; reflexivity);
      match type of H with In _ (if ?c then _ else _) => destruct c; [destruct H|destruct H as [<-|[]]; reflexivity] end.
  Qed.

  Lemma field_names_in d f a : shaped d -> In f (write_order (d_kind d)) -> f <> FExtra -> f <> FAnns -> In a (field_keys d f) ->
    In (written_key f) (field_names d).
  Proof.
    intros Hs H N1 N2 Ha. apply in_flat_map. exists f. split; [exact H|]. destruct f; try congruence; try (left; reflexivity).
    unfold field_keys in Ha. destruct (getf FDefault d) as [v|] eqn:G; [|destruct Ha].
    pose proof (get_spec_sort d FDefault v Hs G) as S. destruct v; try discriminate S. destruct o; [left; reflexivity|destruct Ha].
  Qed.

  Lemma tidy_apart d : tidy d -> apart (flat_map (field_keys d) (write_order (d_kind d))) = true.
  Proof.
    intros [Hs [Hz [Hx [Ha [Hf Hxa]]]]]. apply apart_flat_map; [apply write_order_nodup| |].
    - intros f Hi. unfold field_keys. destruct (getf f d) as [v|] eqn:G; [|reflexivity].
      assert (E : forall k f', apart (if is_default (d_kind d) f' v then [] else [KStr k]) = true) by (intros; destruct is_default; reflexivity).
      destruct v; try (destruct f; try reflexivity; apply E).
      + unfold ann_keys_of in Ha. pose proof (get_spec_sort d f _ Hs G) as S.
        destruct (field_dec f FAnns) as [->|N]; [rewrite G in Ha; apply apart_strings; exact Ha|].
        destruct f; try congruence; cbn in S; destruct (d_kind d); discriminate S.
      + pose proof (get_spec_sort d f _ Hs G) as S.
        destruct (field_dec f FExtra) as [->|N]; [rewrite getf_extra in G; injection G as <-; exact Hx|].
        destruct f; try congruence; cbn in S; destruct (d_kind d); discriminate S.
    - assert (B : forall f g a b, In f (write_order (d_kind d)) -> In g (write_order (d_kind d)) -> f <> g ->
        In a (field_keys d f) -> In b (field_keys d g) -> a = b -> False).
      { intros f g a b Hf0 Hg0 N A0 B0 E. subst b. pose proof A0 as A9. pose proof B0 as B9. apply field_keys_in in A0; [|exact Hs]. apply field_keys_in in B0; [|exact Hs].
        destruct A0 as [[-> A0]|[[-> [s [-> A0]]]|[N1 [N2 ->]]]]; destruct B0 as [[-> B0]|[[-> [s' [E B0]]]|[M1 [M2 E]]]]; try congruence.
        - rewrite E in A0. exact (Hxa s' B0 A0).
        - rewrite E in A0. exact (proj1 (Hf _ (field_names_in _ g _ Hs Hg0 M1 M2 B9)) A0).
        - exact (Hxa s A0 B0).
        - injection E as ->. exact (proj2 (Hf _ (field_names_in _ g _ Hs Hg0 M1 M2 B9)) A0).
        - exact (proj1 (Hf _ (field_names_in _ f _ Hs Hf0 N1 N2 A9)) B0).
        - injection E as <-. exact (proj2 (Hf _ (field_names_in _ f _ Hs Hf0 N1 N2 A9)) B0).
        - injection E as E. apply N. apply (write_order_names (d_kind d)); assumption. }
      intros f g a b Hf0 Hg0 N A0 B0. destruct (gkey_eqb a b) eqn:E; [|reflexivity]. exfalso.
      pose proof A0 as A1. pose proof B0 as B1.
      apply field_keys_in in A1; [|exact Hs]. apply field_keys_in in B1; [|exact Hs].
      assert (S : (exists s, a = KStr s) \/ (exists s, b = KStr s)).
      { destruct A1 as [[-> A1]|[[_ [s [-> _]]]|[_ [_ ->]]]]; eauto. destruct B1 as [[-> B1]|[[_ [s [-> _]]]|[_ [_ ->]]]]; eauto. congruence. }
      apply (B f g a b Hf0 Hg0 N A0 B0). destruct S as [[s ->]|[s ->]].
      + destruct b; try discriminate E. cbn in E. apply String.eqb_eq in E. congruence.
      + destruct a; try discriminate E. cbn in E. apply String.eqb_eq in E. congruence.
  Qed.

  Lemma tidy_out d : tidy d -> type_marshal ty d [] = segs ty d.
  Proof.
    intros Ht. pose proof (tidy_apart d Ht) as Ha. destruct Ht as [Hs [Hz _]]. rewrite type_marshal_segs.
    - apply puts_fresh_nil. rewrite segs_keys by assumption. exact Ha.
    - destruct d as [b|b x f c s]; [right; eauto|]. left. apply (shaped_cases b x f c s) in Hs. cbn. tauto.
  Qed.

  Lemma has_type d : shas gkey_eqb (KStr "type") (segs ty d) = true.
  Proof.
    unfold shas, segs. apply existsb_exists. exists (KStr "type", Ok (type_node (d_base d))).
    split; [apply in_or_app; right; left; reflexivity|reflexivity].
  Qed.

  Lemma only_type_segs d : tidy d -> only_type d -> segs ty d = [(KStr "type", Ok (type_node (d_base d)))].
  Proof.
    intros [Hs [Hz _]] Ho.
    assert (N : forall f, f <> FType -> field_keys d f = []).
    { intros f Hf. unfold field_keys. destruct (getf f d) as [v|] eqn:G; [|reflexivity].
      pose proof (Ho f v Hf G) as D. pose proof (get_spec_sort d f v Hs G) as S.
      destruct v; try (rewrite D; destruct f; congruence || reflexivity).
      - destruct f; cbn in S; destruct (d_kind d); try discriminate S; cbn in D; destruct m as [[|? ?] ?]; try reflexivity; discriminate D.
      - destruct f; cbn in S; destruct (d_kind d); try discriminate S; cbn in D; destruct m as [[|? ?] ?]; try reflexivity; discriminate D. }
    assert (E : forall f, f <> FType -> field_segs d f = []).
    { intros f Hf. apply map_eq_nil with (f := fst). rewrite field_segs_keys by assumption. apply N; exact Hf. }
    assert (G : forall l, ~ In FType l -> flat_map (field_segs d) l = []).
    { induction l as [|f l IH]; intros H; [reflexivity|]. cbn. rewrite E, IH; [reflexivity| |]; intros H'; apply H; [right|left]; congruence. }
    assert (T : field_segs d FType = [(KStr "type", Ok (type_node (d_base d)))]).
    { unfold field_segs. rewrite getf_type. reflexivity. }
    rewrite segs_fields by exact Hs. unfold write_order. unfold shaped in Hs.
    destruct (d_kind d); cbn [own_order app flat_map]; rewrite T; rewrite ?E by discriminate; reflexivity.
  Qed.
End Write.

Section Form.
  Context {F : FloatIO}.

  Lemma own_in_order k f : In f (own_facets k) -> In f (own_order k).
  Proof. destruct k; cbn; tauto. Qed.

  Lemma in_write_order d f v : shaped d -> getf f d = Some v -> In f (write_order (d_kind d)).
  Proof.
    intros Hs G. destruct d as [b|b x fs c s].
    - unfold shaped, d_kind in *. cbn in Hs. destruct f; try discriminate G; cbn; destruct (b_kind b); try discriminate Hs; cbn; auto.
    - destruct (shaped_cases b x fs c s Hs) as [N1 [N2 H]]. unfold d_kind. cbn [d_base].
      destruct (b_kind b); try congruence; destruct s; try discriminate H; destruct f; try discriminate G; cbn; tauto.
  Qed.

  Lemma flat_map_two {A B} (h : A -> list B) l a b : In a l -> In b l -> a <> b -> h a <> [] -> h b <> [] ->
    (2 <= List.length (flat_map h l))%nat.
  Proof.
    intros Ha Hb Hab Na Nb. apply in_split in Ha as [p [q ->]].
    assert (Hb' : In b (p ++ q)).
    { apply in_app_or in Hb as [Hb|[Hb|Hb]]; [apply in_or_app; auto|congruence|apply in_or_app; auto]. }
    rewrite flat_map_app. cbn. rewrite !app_length.
    assert (La : (1 <= List.length (h a))%nat) by (destruct (h a); [congruence|cbn; lia]).
    assert (Lb : (1 <= List.length (flat_map h p) + List.length (flat_map h q))%nat).
    { rewrite <- app_length, <- flat_map_app. apply in_split in Hb' as [p' [q' ->]]. rewrite flat_map_app. cbn. rewrite !app_length.
      destruct (h b); [congruence|cbn; lia]. }
    lia.
  Qed.

  Lemma field_keys_default d f v : shaped d -> getf f d = Some v -> f <> FType -> field_keys d f = [] -> is_default (d_kind d) f v = true.
  Proof.
    intros Hs G N E. unfold field_keys in E. rewrite G in E. pose proof (get_spec_sort d f v Hs G) as S.
    destruct v; try (destruct f; try congruence; match goal with |- ?c = true => destruct c; [reflexivity|discriminate E] end).
    - destruct f; cbn in S; destruct (d_kind d); try discriminate S; destruct m as [[|? ?] ?]; try reflexivity; discriminate E.
    - destruct f; cbn in S; destruct (d_kind d); try discriminate S; destruct m as [[|? ?] ?]; try reflexivity; discriminate E.
  Qed.

  Lemma short_only ty d : tidy d -> is_short (segs ty d) = true -> only_type d.
  Proof.
    intros [Hs [Hz _]] H f v N G. apply (field_keys_default d f v Hs G N).
    unfold is_short in H. apply andb_true_iff in H as [H _]. apply Nat.eqb_eq in H.
    rewrite <- (map_length fst), segs_keys in H by assumption.
    destruct (field_keys d f) eqn:E; [reflexivity|]. exfalso.
    assert (2 <= List.length (flat_map (field_keys d) (write_order (d_kind d))))%nat; [|lia].
    apply (flat_map_two _ _ f FType).
    - eapply in_write_order; eassumption.
    - eapply in_write_order; [exact Hs|apply getf_type].
    - exact N.
    - rewrite E. discriminate.
    - unfold field_keys. rewrite getf_type. discriminate.
  Qed.

  (** C33 *)
  Lemma written_form d : tidy d ->
    (only_type d -> to_yaml d = Ok (match d_kind d with TyInclude => Scal TInclude (d_type d) | _ => Scal TStr (d_type d) end)) /\
    (~ only_type d -> forall n, to_yaml d = Ok n -> exists l, n = Map TMap l).
  Proof.
    intros Ht. rewrite to_yaml_eq. unfold to_yaml_body, short_or_full. rewrite tidy_out by exact Ht. split.
    - intros Ho. rewrite only_type_segs by assumption. reflexivity.
    - intros Ho n H. destruct (is_short (segs to_yaml d)) eqn:E; [exfalso; apply Ho; eapply short_only; eassumption|].
      apply out_to_yaml_ok in H as [l [-> _]]. eauto.
  Qed.

  (** C34 *)
  Lemma written_order d l : tidy d -> to_yaml d = Ok (Map TMap l) ->
    Forall2 (fun k p => key_node k = Ok (fst p)) (flat_map (field_keys d) (write_order (d_kind d))) l /\
    apart (flat_map (field_keys d) (write_order (d_kind d))) = true.
  Proof.
    intros Ht H. split; [|exact (tidy_apart d Ht)]. rewrite to_yaml_eq in H. unfold to_yaml_body, short_or_full in H. rewrite tidy_out in H by exact Ht.
    destruct (is_short (segs to_yaml d)) eqn:E.
    - pose proof (short_only _ d Ht E) as Ho. rewrite only_type_segs in H by assumption. cbn in H. unfold type_node in H.
      destruct (b_kind (d_base d)); discriminate H.
    - apply out_to_yaml_ok in H as [l' [E' H]]. injection E' as <-. destruct Ht as [Hs [Hz _]].
      rewrite <- (segs_keys to_yaml d Hs Hz). clear -H. induction H as [|e p o l [H1 _] _ IH]; cbn; constructor; auto.
  Qed.

  (** The pairs, field by field. *)
  Lemma written_pairs d : tidy d ->
    to_yaml d = if is_short (segs to_yaml d) then Ok (type_node (d_base d)) else out_to_yaml (flat_map (field_segs to_yaml d) (write_order (d_kind d))).
  Proof.
    intros Ht. rewrite to_yaml_eq. unfold to_yaml_body, short_or_full. rewrite tidy_out by exact Ht.
    destruct (is_short (segs to_yaml d)) eqn:E.
    - rewrite only_type_segs; [reflexivity|exact Ht|]. eapply short_only; eassumption.
    - rewrite segs_fields; [reflexivity|exact (proj1 Ht)].
  Qed.

  Lemma default_written d v n : tidy d -> getf FDefault d = Some (VOptVal (Some v)) -> to_yaml d = Ok n ->
    exists m l, to_node v = Ok m /\ n = Map TMap ((str_node "default", m) :: l).
  Proof.
    intros Ht G H. rewrite written_pairs in H by exact Ht. destruct (is_short (segs to_yaml d)) eqn:E.
    - pose proof (short_only _ d Ht E FDefault _ ltac:(discriminate) G) as D. destruct (d_kind d); discriminate D.
    - apply out_to_yaml_ok in H as [l [-> H]].
      destruct d as [b|b x fs c s]; [discriminate G|]. destruct (shaped_cases b x fs c s (proj1 Ht)) as [N1 [N2 _]].
      assert (W : exists r, write_order (d_kind (TExt b x fs c s)) = FDefault :: r).
      { unfold d_kind. cbn [d_base]. destruct (b_kind b); try congruence; eexists; reflexivity. }
      destruct W as [r W]. rewrite W in H. cbn [flat_map] in H. unfold field_segs at 1 in H. rewrite G in H. cbn in H.
      inversion H as [|e p o q [H1 H2] H3]; subst. cbn in H1, H2. destruct p as [k m]. cbn in *. injection H1 as <-. eauto.
  Qed.

  Lemma tidy_set_default d o : tidy d -> ~ In (KStr "default") (extra_keys d) -> ~ In "default" (ann_keys_of d) ->
    tidy (setf FDefault (VOptVal o) d).
  Proof.
    intros [H1 [H2 [H3 [H4 [H5 H6]]]]] N1 N2. destruct d as [b|b x fs c s]; [repeat split; assumption || apply H5; assumption|].
    split; [apply shaped_setf; exact H1|].
    rewrite (getf_setf_other FDefault FMinLength) by discriminate.
    change (extra_keys (setf FDefault (VOptVal o) (TExt b x fs c s))) with (extra_keys (TExt b x fs c s)).
    change (ann_keys_of (setf FDefault (VOptVal o) (TExt b x fs c s))) with (ann_keys_of (TExt b x fs c s)).
    repeat split; try assumption.
    - apply in_flat_map in H as [f [Hf Hs]].
      assert (D : f = FDefault \/ f <> FDefault) by (destruct (field_dec f FDefault); auto). destruct D as [->|D].
      + cbn in Hs. destruct o; [|destruct Hs]. destruct Hs as [<-|[]]. exact N1.
      + apply (H5 s0). apply in_flat_map. exists f. split; [exact Hf|]. destruct f; try congruence; exact Hs.
    - apply in_flat_map in H as [f [Hf Hs]].
      assert (D : f = FDefault \/ f <> FDefault) by (destruct (field_dec f FDefault); auto). destruct D as [->|D].
      + cbn in Hs. destruct o; [|destruct Hs]. destruct Hs as [<-|[]]. exact N2.
      + apply (H5 s0). apply in_flat_map. exists f. split; [exact Hf|]. destruct f; try congruence; exact Hs.
  Qed.

  (** Where the type is in what is written. *)
  Lemma type_pair d l : tidy d -> to_yaml d = Ok (Map TMap l) ->
    exists p q, l = p ++ (str_node "type", type_node (d_base d)) :: q /\ has_type_key p = false.
  Proof.
    intros Ht H. rewrite written_pairs in H by exact Ht. destruct (is_short (segs to_yaml d)).
    { unfold type_node in H. destruct (b_kind (d_base d)); discriminate H. }
    rewrite <- segs_fields in H by exact (proj1 Ht). apply out_to_yaml_ok in H as [l' [E H]]. injection E as <-.
    unfold segs in H. apply Forall2_app_inv_l in H as [p [r [Hp [Hr ->]]]].
    cbn [opt_seg app] in Hr. inversion Hr as [|e a o q [H1 H2] H3]; subst. destruct a as [k n]. cbn in H1, H2. injection H1 as <-. injection H2 as <-.
    exists p, q. split; [reflexivity|]. destruct d as [b|b x fs c s]; cbn [head_segs] in Hp; [inversion Hp; reflexivity|].
    apply Forall2_app_inv_l in Hp as [p1 [p2 [P1 [P2 ->]]]]. apply Forall2_app_inv_l in P2 as [p3 [p4 [P3 [P4 ->]]]].
    apply wrote_opt in P1, P3, P4. unfold has_type_key. rewrite !existsb_app, !orb_false_iff. unfold str_opt in *.
    destruct (c_def c), (x_display x), (x_descr x); cbn [option_map] in P1, P3, P4;
      repeat match goal with E : exists _, _ /\ _ |- _ => destruct E as [? [_ ->]] end; subst; repeat split.
  Qed.

  (** C35: the kind that is read back depends on the type string alone. *)
  Lemma kind_after d n d' : tidy d -> to_yaml d = Ok n -> hat n = Ok d' ->
    d_kind d' = match d_kind d with TyInclude => TyInclude | _ => kind_of (d_type d) end.
  Proof.
    intros Ht H H'. assert (C : is_map n = false \/ exists l, n = Map TMap l).
    { rewrite written_pairs in H by exact Ht. destruct (is_short _).
      - injection H as <-. left. unfold type_node. destruct (b_kind (d_base d)); reflexivity.
      - apply out_to_yaml_ok in H as [l [-> _]]. right. eauto. }
    destruct C as [C|[l ->]].
    - rewrite written_pairs in H by exact Ht. destruct (is_short _); [|apply out_to_yaml_ok in H as [l [-> _]]; discriminate].
      injection H as <-. rewrite hat_eq in H'. unfold type_node, d_kind, d_type in *.
      destruct (b_kind (d_base d)); cbn -[type_to_kind] in H'; injection H' as <-; rewrite ?type_to_kind_eq; fold (d_kind (set_schema (b_schema (d_base d)) (new_type (kind_of (b_schema (d_base d)))))); rewrite ?d_kind_set, ?d_kind_new; reflexivity.
    - destruct (type_pair d l Ht H) as [p [q [-> Hp]]].
      rewrite hat_eq in H'. unfold hat_body in H'. cbn [is_string node_tag] in H'. apply bind_ok in H' as [d0 [H0 H']].
      rewrite sift_first in H0 by (reflexivity || exact Hp). apply fold_kind in H' as [-> _].
      unfold type_node, d_kind, d_type in *.
      destruct (b_kind (d_base d)); cbn in H0; injection H0 as <-; fold (d_kind (set_schema (b_schema (d_base d)) (new_type (kind_of (b_schema (d_base d)))))); rewrite ?d_kind_set, ?d_kind_new; reflexivity.
  Qed.
End Form.
