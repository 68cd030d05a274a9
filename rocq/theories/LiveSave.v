(** Everything that is kept fit for saving can be saved and loaded (C75). *)
From Coq Require Import SpecFloat.
From Verif Require Import Base Num OMap OMapSpec Keys Yaml Values Assign Formats Meta Out Xml Example DataType Marshal Doc Api Library
  AssignProofs TypeFacts Fields FieldProofs FacetSpec FacetProofs DocProofs OrderProofs PathProofs Lens Segs ExProofs WriteProofs ReadInv Same ExRound TypeSegs WriteSpec
  RoundSpec RoundProofs WasRead Writable Stable Crash Parts ApiFields ApiSpec ApiProofs LibProofs ApiWrite ApiRoundSpec ApiRound LibRound ApiOrder ApiReadRound
  LibReadRound Setters SetterSpec SetterProofs EditSpec EditSave Live LiveSpec LiveProofs LiveSaveSpec.

(** ** Distinct keys *)

Lemma distinct_strings l : ForallOrdPairs (fun a b => String.eqb a b = false) l <-> NoDup l.
Proof.
  induction l as [|a l IH]; [split; constructor|]. split; intros H; inversion H as [|x y H1 H2]; subst; constructor.
  - intros C. rewrite Forall_forall in H1. specialize (H1 a C). rewrite String.eqb_refl in H1. discriminate.
  - apply IH. exact H2.
  - apply Forall_forall. intros b Hb. apply String.eqb_neq. intros ->. exact (H1 Hb).
  - apply IH. exact H2.
Qed.

Lemma distinct_keys l : ForallOrdPairs (fun a b => gkey_eqb a b = false) l <-> apart l = true.
Proof.
  induction l as [|a l IH]; [split; [reflexivity|constructor]|]. cbn [apart]. rewrite andb_true_iff. split.
  - intros H. inversion H as [|x y H1 H2]; subst. split; [|apply IH; exact H2]. apply forallb_forall. intros b Hb. rewrite Forall_forall in H1. rewrite (H1 b Hb). reflexivity.
  - intros [H1 H2]. constructor; [|apply IH; exact H2]. apply Forall_forall. intros b Hb. rewrite forallb_forall in H1. apply negb_true_iff. exact (H1 b Hb).
Qed.

Lemma pairs_snoc {A} (R : A -> A -> Prop) l x : ForallOrdPairs R l -> (forall a, In a l -> R a x) -> ForallOrdPairs R (l ++ [x]).
Proof.
  induction l as [|a l IH]; intros H Hx; [repeat constructor|]. inversion H as [|y z H1 H2]; subst. cbn. constructor.
  - apply Forall_app. split; [exact H1|]. constructor; [|constructor]. apply Hx. left. reflexivity.
  - apply IH; [exact H2|]. intros b Hb. apply Hx. right. exact Hb.
Qed.

Lemma pairs_filter {K V} (R : K -> K -> Prop) f (l : list (K * V)) : ForallOrdPairs R (map fst l) -> ForallOrdPairs R (map fst (filter f l)).
Proof.
  induction l as [|e l IH]; intros H; [constructor|]. cbn in H. inversion H as [|x y H1 H2]; subst. cbn [filter]. destruct (f e); [|apply IH; exact H2].
  cbn. constructor; [|apply IH; exact H2]. apply Forall_forall. intros b Hb. rewrite Forall_forall in H1. apply H1.
  apply in_map_iff in Hb as [p [<- Hp]]. apply filter_In in Hp as [Hp _]. apply in_map. exact Hp.
Qed.

(** ** One map *)

Section OneMap.
  Context {K V : Type} (keq : K -> K -> bool) (s : slot) (P : K -> V -> Prop).

  Lemma put_returns m a v : map_returns keq s P m -> P a v -> (unfolded s = false -> oord m = false) -> map_returns keq s P (mkMap (sput keq a v (ents m)) (oord m)).
  Proof.
    intros [H1 [H2 H3]] Hp Ho. split; [|split].
    - cbn [ents]. unfold sput. rewrite map_app. apply pairs_snoc; [apply pairs_filter; exact H1|]. intros b Hb. cbn [fst].
      apply in_map_iff in Hb as [e [<- He]]. apply filter_In in He as [_ He]. unfold other in He. apply negb_true_iff in He. exact He.
    - cbn [ents]. intros b x Hi. unfold sput in Hi. apply in_app_or in Hi as [Hi|[Hi|[]]]; [apply filter_In in Hi as [Hi _]; exact (H2 b x Hi)|].
      injection Hi as <- <-. exact Hp.
    - cbn [oord]. intros U _. exact (Ho U).
  Qed.

  Lemma replace_in a v (l : list (K * V)) b x : In (b, x) (sreplace keq a v l) -> In (b, x) l \/ (keq b a = true /\ x = v).
  Proof.
    intros H. unfold sreplace in H. apply in_map_iff in H as [e [E He]]. destruct (keq (fst e) a) eqn:Q; [|left; subst; exact He].
    injection E as <- <-. auto.
  Qed.

  Lemma replace_keys a v (l : list (K * V)) : map fst (sreplace keq a v l) = map fst l.
  Proof. unfold sreplace. rewrite map_map. apply map_ext. intros e. destruct (keq (fst e) a); reflexivity. Qed.

  Hypothesis swap : forall a b x v, keq b a = true -> P b x -> P a v -> P b v.

  Lemma replace_returns m a v : map_returns keq s P m -> P a v -> map_returns keq s P (mkMap (sreplace keq a v (ents m)) (oord m)).
  Proof.
    intros [H1 [H2 H3]] Hp. split; [cbn [ents]; rewrite replace_keys; exact H1|]. split.
    - cbn [ents]. intros b x Hi. unfold sreplace in Hi. apply in_map_iff in Hi as [[b' x'] [E He]]. cbn [fst] in E. destruct (keq b' a) eqn:Q.
      + injection E as <- <-. exact (swap a b' x' v Q (H2 _ _ He) Hp).
      + injection E as <- <-. exact (H2 _ _ He).
    - cbn [ents oord]. intros U N. apply (H3 U). intros E. apply N. rewrite E. reflexivity.
  Qed.

  Lemma delete_returns m a : map_returns keq s P m -> map_returns keq s P (mkMap (sdelete keq a (ents m)) (oord m)).
  Proof.
    intros [H1 [H2 H3]]. split; [apply pairs_filter; exact H1|]. split.
    - cbn [ents]. intros b x Hi. unfold sdelete in Hi. apply filter_In in Hi as [Hi _]. exact (H2 b x Hi).
    - cbn [ents oord]. intros U N. apply (H3 U). intros E. apply N. rewrite E. reflexivity.
  Qed.

  Lemma op_returns m o : map_returns keq s P m -> op_saves s P m o -> map_returns keq s P (map_edit keq o m).
  Proof.
    intros H Ho. destruct m as [l b]. destruct o as [a v|a [v|]|a v|a v|a|b'|a|a|a| |j|a|]; unfold map_edit; cbn [sstep ents oord op_saves] in *; try exact H.
    - apply (put_returns (mkMap l b)); tauto.
    - apply (put_returns (mkMap l b)); tauto.
    - destruct (shas keq a l); [apply (replace_returns (mkMap l b))|apply (put_returns (mkMap l b))]; tauto.
    - apply (replace_returns (mkMap l b)); tauto.
    - apply (delete_returns (mkMap l b)); exact H.
    - destruct H as [H1 [H2 H3]]. split; [exact H1|]. split; [exact H2|]. exact Ho.
    - destruct (sat j l); exact H.
  Qed.
End OneMap.

Lemma got_dec (g : option nat) r : {g = Some r} + {g <> Some r}.
Proof. decide equality. apply Nat.eq_dec. Qed.

Section LiveSave.
  Context {F : FloatIO}.

  Lemma same_string_key (Q : string -> Prop) a b : String.eqb b a = true -> Q a -> Q b.
  Proof. intros E. apply String.eqb_eq in E. subst. auto. Qed.

  Lemma edit_returns k s c e : cell_returns k s c -> edit_saves k s c e -> cell_returns k s (edit_cell e c).
  Proof.
    intros H He. destruct e as [o|o|o|o|o|o|o|o]; destruct c as [m|m|m|m|m|m|m|m]; try exact H; cbn [edit_cell cell_returns edit_saves] in *;
      apply op_returns; try assumption; intros a b x v Q Hx Hv.
    5:{ destruct s; try contradiction Hx. cbn in *. destruct k as [| |t].
      - tauto.
      - tauto.
      - destruct Hx as [X1 [p [X2 [_ [X4 X5]]]]]. destruct Hv as [_ [q [_ [V _]]]]. split; [exact X1|]. exists p. auto. }
    all: apply String.eqb_eq in Q; subst b; exact Hv.
  Qed.

  (** ** Objects and their maps *)

  Lemma section_map {V} (Q : V -> Prop) s (P : string -> V -> Prop) (m : amap string V) : unfolded s = false -> (forall a v, P a v <-> Q v) ->
    (section_returns Q m <-> map_returns String.eqb s P m).
  Proof.
    intros U E. unfold section_returns, map_returns. rewrite distinct_strings, Forall_forall. split.
    - intros [H1 [H2 H3]]. split; [exact H2|]. split; [|auto]. intros a v Hi. apply E. exact (H3 _ Hi).
    - intros [H1 [H2 H3]]. split; [exact (H3 U)|]. split; [exact H1|]. intros [a v] Hi. apply (E a). exact (H2 _ _ Hi).
  Qed.

  Lemma anns_map s (P : string -> untyped -> Prop) (m : amap string untyped) : unfolded s = true ->
    (forall a v, P a v <-> starts_paren a = true /\ ann_returns v) ->
    (NoDup (map fst (ents m)) /\ Forall (fun e => starts_paren (fst e) = true /\ ann_returns (snd e)) (ents m) <-> map_returns String.eqb s P m).
  Proof.
    intros U E. unfold map_returns. rewrite distinct_strings, Forall_forall, U. split.
    - intros [H1 H2]. split; [exact H1|]. split; [|discriminate]. intros a v Hi. apply E. exact (H2 _ Hi).
    - intros [H1 [H2 _]]. split; [exact H1|]. intros [a v] Hi. apply E. exact (H2 _ _ Hi).
  Qed.

  (** What an object has apart from its maps. *)
  Definition rest_returns (o : obj) : Prop :=
    match o with
    | OApi a => Forall (fun d => d = new_doc) (opt_list (a_documentation a))
    | OLib _ | ODoc _ | OEx _ => True
    | OType t => shaped t /\ (d_kind t <> TyInclude -> named (d_type t) (d_kind t)) /\
                 forall f v, ~ In f [FAnns; FExtra; FFacets; FExamples; FProps] -> getf f t = Some v -> field_returns type_returns (d_kind t) f v
    end.
  Definition maps_return (o : obj) : Prop := forall k s c, okind_of o = Some k -> get_map s o = Some c -> cell_returns k s c.

  Lemma rest_set s c o : rest_returns (set_map s c o) <-> rest_returns o.
  Proof.
    destruct o as [a|a|a|a|u].
    - destruct s; destruct c; reflexivity.
    - destruct s; destruct c; reflexivity.
    - destruct s; destruct c; reflexivity.
    - destruct s; destruct c; reflexivity.
    - destruct u as [b|b x fs k p].
      + destruct s; destruct c as [m|m|m|m|m|m|m|m]; try reflexivity. cbn [set_map rest_returns]. unfold shaped. cbn [d_kind d_type d_base b_kind b_schema].
        split; intros [H1 [H2 H3]]; (split; [exact H1|split; [exact H2|]]); intros f v N G; apply (H3 f v N); destruct f; try exact G; destruct N; cbn; tauto.
      + destruct s; destruct c as [m|m|m|m|m|m|m|m]; try (destruct p; reflexivity).
        all: try (destruct p; split; intros [H1 [H2 H3]]; (split; [exact H1|split; [exact H2|]]); intros f v N G; apply (H3 f v N); destruct f; try exact G; destruct N; cbn; tauto).
  Qed.

  Lemma rest_strip o : rest_returns (strip o) <-> rest_returns o.
  Proof. unfold strip. generalize all_slots as l. intros l. induction l as [|s l IH]; [reflexivity|]. cbn [fold_right]. rewrite rest_set. exact IH. Qed.

  Lemma kind_set s c o : okind_of (set_map s c o) = okind_of o.
  Proof. destruct o as [a|a|a|a|u]; [| | | |destruct u as [b|b x fs k p]]; destruct s; destruct c; try reflexivity; destruct p; reflexivity. Qed.
  Lemma kind_strip o : okind_of (strip o) = okind_of o.
  Proof. unfold strip. generalize all_slots as l. intros l. induction l as [|s l IH]; [reflexivity|]. cbn [fold_right]. rewrite kind_set. exact IH. Qed.

  (** ** Splitting *)

  Ltac sections := repeat split; try (eapply (section_map _ _ _ _ eq_refl); [|eassumption]; cbn; tauto).

  Lemma api_split a : api_returns a <-> rest_returns (OApi a) /\ maps_return (OApi a).
  Proof.
    unfold api_returns. split.
    - intros [T [R1 [R2 [R3 [R4 [R5 [R6 [R7 [R8 [R9 [R10 R11]]]]]]]]]]]. destruct T as [T1 [T2 [T3 _]]]. split; [exact R1|].
      intros k s c K G. injection K as <-. destruct s; try discriminate G; injection G as <-; cbn [cell_returns].
      + apply (section_map (fun _ => True)); [reflexivity|cbn; tauto|exact R2].
      + apply (section_map has_node); [reflexivity|cbn; tauto|assumption].
      + apply (section_map has_node); [reflexivity|cbn; tauto|assumption].
      + apply (section_map has_node); [reflexivity|cbn; tauto|assumption].
      + apply (section_map has_node); [reflexivity|cbn; split; [tauto|split; [discriminate|assumption]]|assumption].
      + apply (section_map has_node); [reflexivity|cbn; tauto|assumption].
      + split; [apply distinct_strings; exact T3|]. split; [|discriminate]. intros p v Hi. rewrite Forall_forall in R10. exact (R10 _ Hi).
      + apply (section_map type_returns); [reflexivity|cbn; tauto|assumption].
      + apply anns_map; [reflexivity|cbn; tauto|split; assumption].
      + split; [apply distinct_keys; exact T2|]. split; [|discriminate]. intros p v Hi. unfold extras_return in R11. rewrite Forall_forall in R11. exact (R11 _ Hi).
    - intros [R1 M]. assert (G : forall s c, get_map s (OApi a) = Some c -> cell_returns KApi s c) by (intros s c; apply M; reflexivity). clear M.
      pose proof (G SUses _ eq_refl) as G1. pose proof (G SSecuritySchemes _ eq_refl) as G2. pose proof (G SBaseURIParameters _ eq_refl) as G3.
      pose proof (G STraits _ eq_refl) as G4. pose proof (G SAnnotationTypes _ eq_refl) as G5. pose proof (G SResourceTypes _ eq_refl) as G6.
      pose proof (G SResources _ eq_refl) as G7. pose proof (G STypes _ eq_refl) as G8. pose proof (G SAnnotations _ eq_refl) as G9. pose proof (G SExtra _ eq_refl) as G10.
      clear G. cbn [cell_returns] in *.
      apply (section_map (fun _ => True)) in G1; [|reflexivity|cbn; tauto].
      apply (section_map has_node) in G2; [|reflexivity|cbn; tauto]. apply (section_map has_node) in G3; [|reflexivity|cbn; tauto].
      apply (section_map has_node) in G4; [|reflexivity|cbn; tauto]. apply (section_map has_node) in G5; [|reflexivity|cbn; split; [tauto|split; [discriminate|assumption]]].
      apply (section_map has_node) in G6; [|reflexivity|cbn; tauto]. apply (section_map type_returns) in G8; [|reflexivity|cbn; tauto].
      apply anns_map in G9; [|reflexivity|cbn; tauto]. destruct G9 as [G9 G9'].
      destruct G7 as [G7 [G7' _]]. apply distinct_strings in G7. destruct G10 as [G10 [G10' _]]. apply distinct_keys in G10.
      assert (A : forall p, In p (map fst (ents (a_annotations a))) -> starts_paren p = true).
      { intros p Hp. apply in_map_iff in Hp as [e [<- He]]. rewrite Forall_forall in G9'. exact (proj1 (G9' e He)). }
      assert (R : forall p, In p (map fst (ents (a_resources a))) -> starts_slash p = true).
      { intros p Hp. apply in_map_iff in Hp as [[q v] [<- He]]. exact (proj1 (G7' q v He)). }
      assert (X : forall p, In (KStr p) (map fst (ents (a_extra a))) -> ~ (p = "" \/ starts_paren p = true \/ starts_slash p = true \/ In p api_names)).
      { intros p Hp. apply in_map_iff in Hp as [[q v] [E He]]. cbn in E. subst q. exact (proj2 (proj2 (G10' _ v He)) p eq_refl). }
      split.
      { split; [exact G9|]. split; [exact G10|]. split; [exact G7|]. split; [|split].
        - intros f Hf Hk. assert (In (api_key f) api_names) by (clear - Hf Hk; cbn in Hf; repeat destruct Hf as [<-|Hf]; try destruct Hf; cbn in *; try congruence; tauto).
          split; [|split]; intros C.
          + apply A in C. rewrite names_no_paren in C. discriminate.
          + apply X in C. tauto.
          + apply R in C. destruct f; discriminate C.
        - intros p Hp. split; intros C; [apply X in C; apply A in Hp; tauto|]. apply R in C. apply A in Hp. destruct p as [|c r]; [discriminate|]. cbn in C, Hp.
          destruct (Ascii.eqb_spec c "("); [subst c; discriminate C|discriminate Hp].
        - intros p Hp C. apply X in C. apply R in Hp. tauto. }
      repeat match goal with |- _ /\ _ => split end; try assumption.
      + apply Forall_forall. intros [q v] Hi. exact (G7' q v Hi).
      + apply Forall_forall. intros [q v] Hi. exact (G10' q v Hi).
  Qed.

  Lemma lib_split a : lib_returns a <-> rest_returns (OLib a) /\ maps_return (OLib a).
  Proof.
    unfold lib_returns. split.
    - intros [T [R1 [R2 [R3 [R4 [R5 [R6 [R7 [R8 R9]]]]]]]]]. destruct T as [T1 [T2 _]]. split; [exact I|].
      intros k s c K G. injection K as <-. destruct s; try discriminate G; injection G as <-; cbn [cell_returns].
      + apply (section_map (fun _ => True)); [reflexivity|cbn; tauto|exact R1].
      + apply (section_map has_node); [reflexivity|cbn; tauto|assumption].
      + apply (section_map has_node); [reflexivity|cbn; tauto|assumption].
      + unfold map_returns. rewrite R5. split; [constructor|]. split; [intros p v []|congruence].
      + apply (section_map has_node); [reflexivity|cbn; tauto|assumption].
      + apply (section_map type_returns); [reflexivity|cbn; tauto|assumption].
      + apply anns_map; [reflexivity|cbn; tauto|split; assumption].
      + split; [apply distinct_keys; exact T2|]. split; [|discriminate]. intros p v Hi. unfold extras_return in R8. rewrite Forall_forall in R8, R9.
        cbn. destruct (R8 _ Hi) as [A [B C]]. split; [exact A|]. split; [exact B|]. split; [exact C|exact (R9 _ Hi)].
    - intros [_ M]. assert (G : forall s c, get_map s (OLib a) = Some c -> cell_returns KLib s c) by (intros s c; apply M; reflexivity). clear M.
      pose proof (G SUses _ eq_refl) as G1. pose proof (G SSecuritySchemes _ eq_refl) as G2.
      pose proof (G STraits _ eq_refl) as G4. pose proof (G SAnnotationTypes _ eq_refl) as G5. pose proof (G SResourceTypes _ eq_refl) as G6.
      pose proof (G STypes _ eq_refl) as G8. pose proof (G SAnnotations _ eq_refl) as G9. pose proof (G SExtra _ eq_refl) as G10.
      clear G. cbn [cell_returns] in *.
      apply (section_map (fun _ => True)) in G1; [|reflexivity|cbn; tauto].
      apply (section_map has_node) in G2; [|reflexivity|cbn; tauto].
      apply (section_map has_node) in G4; [|reflexivity|cbn; tauto].
      apply (section_map has_node) in G6; [|reflexivity|cbn; tauto]. apply (section_map type_returns) in G8; [|reflexivity|cbn; tauto].
      apply anns_map in G9; [|reflexivity|cbn; tauto]. destruct G9 as [G9 G9'].
      destruct G10 as [G10 [G10' _]]. apply distinct_keys in G10.
      assert (N : ents (l_annotationTypes a) = []).
      { destruct G5 as [_ [G5 _]]. destruct (ents (l_annotationTypes a)) as [|[p v] r]; [reflexivity|]. destruct (G5 p v (or_introl eq_refl)) as [C _]. congruence. }
      assert (A : forall p, In p (map fst (ents (l_annotations a))) -> starts_paren p = true).
      { intros p Hp. apply in_map_iff in Hp as [e [<- He]]. rewrite Forall_forall in G9'. exact (proj1 (G9' e He)). }
      assert (X : forall p, In (KStr p) (map fst (ents (l_extra a))) -> ~ (p = "" \/ starts_paren p = true) /\ ~ In p lib_names).
      { intros p Hp. apply in_map_iff in Hp as [[q v] [E He]]. cbn in E. subst q. destruct (G10' _ v He) as [_ [_ [B C]]]. split; [exact (B p eq_refl)|].
        exact (C (str_node p) eq_refl). }
      split.
      { split; [exact G9|]. split; [exact G10|]. split.
        - intros f Hf Hk. assert (In (lib_key f) lib_names) by (clear - Hf Hk; cbn in Hf; repeat destruct Hf as [<-|Hf]; try destruct Hf; cbn in *; try congruence; tauto).
          split; intros C.
          + apply A in C. rewrite lib_names_no_paren in C. discriminate.
          + apply X in C. tauto.
        - intros p Hp C. apply X in C. apply A in Hp. tauto. }
      repeat match goal with |- _ /\ _ => split end; try assumption.
      + apply Forall_forall. intros [q v] Hi. cbn. destruct (G10' q v Hi) as [B1 [B2 [B3 B4]]]. auto.
      + apply Forall_forall. intros [q v] Hi. exact (proj2 (proj2 (proj2 (G10' q v Hi)))).
  Qed.

  Lemma type_split t : type_returns t <-> rest_returns (OType t) /\ maps_return (OType t).
  Proof.
    split.
    - intros H. destruct H as [t T N I0 Fd]. split; [split; [exact (proj1 T)|split; [exact N|intros f v _; apply Fd]]|].
      destruct T as [S [_ [T3 [T4 _]]]].
      intros k s c K G. injection K as <-.
      assert (X : forall m, getf FExtra t = Some (VExtra m) -> cell_returns (KType (d_kind t)) SExtra (CExtra m)).
      { intros m E. pose proof (Fd _ _ E) as R. inversion R as [| | | | | | | | | | | | | | | |m' R']; subst m'. split; [|split; [|discriminate]].
        - apply distinct_keys. rewrite <- (extra_keys_get t m E). exact T3.
        - intros a v Hi. destruct (R' a v Hi) as [p [n [E1 [E2 [E3 E4]]]]]. split; [|exists p; split; [exact E1|]; split; [exists n; exact E2|]; split; assumption].
          intros C. specialize (I0 C). rewrite getf_extra in E. injection E as <-. rewrite I0 in Hi. destruct Hi. }
      assert (A : forall m, getf FAnns t = Some (VAnns m) -> cell_returns (KType (d_kind t)) SAnnotations (CAnns m)).
      { intros m E. pose proof (Fd _ _ E) as R. inversion R as [| | | | | | | | | | | |m' R'| | | |]; subst m'. split; [|split; [|discriminate]].
        - apply distinct_strings. unfold ann_keys_of in T4. rewrite E in T4. exact T4.
        - intros a v Hi. exact (R' a v Hi). }
      assert (Fc : forall m, getf FFacets t = Some (VFacets m) -> cell_returns (KType (d_kind t)) SFacetDefinitions (CFacets m)).
      { intros m E. pose proof (Fd _ _ E) as R. inversion R as [| | | | | | | | | | |m' R1 R2 R3 R4| | | | |]; subst m'. split; [|split; [|auto]].
        - apply distinct_strings. exact R2.
        - intros a v Hi. destruct (R3 a v Hi) as [B1 B2]. split; [exact B1|]. split; [exact B2|]. intros p u Hu. exact (R4 a v p u Hi Hu). }
      assert (Ex : forall m, getf FExamples t = Some (VExs m) -> cell_returns (KType (d_kind t)) SExamples (CExamples m)).
      { intros m E. pose proof (Fd _ _ E) as R. inversion R as [| | | | | | | | | | | | | | |m' R1 R2 R3|]; subst m'. split; [|split; [|auto]].
        - apply distinct_strings. exact R2.
        - intros a v Hi u Ek. injection Ek as <-. exact (R3 a v Hi). }
      assert (P : forall m, getf FProps t = Some (VTypes m) -> cell_returns (KType (d_kind t)) SProperties (CProps m)).
      { intros m E. pose proof (Fd _ _ E) as R. inversion R as [| | | | | | | | | |m' R1 R2 R3| | | | | |]; subst m'. split; [|split; [|auto]].
        - apply distinct_strings. exact R2.
        - intros a v Hi. exact (R3 a v Hi). }
      destruct t as [b|b x fs k p].
      + destruct s; try discriminate G. injection G as <-. apply X. reflexivity.
      + destruct s; try (destruct p; discriminate G).
        * assert (Some (CAnns (x_anns x)) = Some c) as Q by (destruct p; exact G). injection Q as <-. apply A. reflexivity.
        * assert (Some (CExtra (b_extra b)) = Some c) as Q by (destruct p; exact G). injection Q as <-. apply X. reflexivity.
        * assert (Some (CExamples (c_examples k)) = Some c) as Q by (destruct p; exact G). injection Q as <-. apply Ex. reflexivity.
        * assert (Some (CFacets fs) = Some c) as Q by (destruct p; exact G). injection Q as <-. apply Fc. reflexivity.
        * destruct p; try discriminate G. injection G as <-. apply P. reflexivity.
    - intros [[S [N R]] M].
      assert (G : forall s c, get_map s (OType t) = Some c -> cell_returns (KType (d_kind t)) s c) by (intros s c; apply M; reflexivity). clear M.
      assert (Ge : cell_returns (KType (d_kind t)) SExtra (CExtra (d_extra t))) by (apply G; destruct t as [b|b x fs k p]; [reflexivity|]; destruct p; reflexivity).
      assert (Ga : forall b x fs k p, t = TExt b x fs k p -> cell_returns (KType (d_kind t)) SAnnotations (CAnns (x_anns x)) /\
        cell_returns (KType (d_kind t)) SFacetDefinitions (CFacets fs) /\ cell_returns (KType (d_kind t)) SExamples (CExamples (c_examples k)))
        by (intros b x fs k p ->; split; [|split]; apply G; destruct p; reflexivity).
      assert (Fd : forall f v, getf f t = Some v -> field_returns type_returns (d_kind t) f v).
      { intros f v E. destruct (in_dec field_dec f [FAnns; FExtra; FFacets; FExamples; FProps]) as [Hf|Hf]; [|exact (R f v Hf E)].
        destruct Hf as [<-|[<-|[<-|[<-|[<-|[]]]]]].
        - destruct t as [b|b x fs k p]; [discriminate|]. injection E as <-. destruct (proj1 (Ga _ _ _ _ _ eq_refl)) as [_ [B _]]. constructor. intros s a Hi. exact (B s a Hi).
        - rewrite getf_extra in E. injection E as <-. constructor. destruct Ge as [_ [B _]]. intros a v Hi. destruct (B a v Hi) as [_ [p [C1 [[n C2] [C3 C4]]]]].
          exists p, n. auto.
        - destruct t as [b|b x fs k p]; [discriminate|]. injection E as <-. destruct (proj1 (proj2 (Ga _ _ _ _ _ eq_refl))) as [B0 [B1 B2]]. apply distinct_strings in B0.
          constructor; [exact (B2 eq_refl)|exact B0| |].
          + intros s m' Hi. destruct (B1 s m' Hi) as [C1 [C2 _]]. auto.
          + intros s m' s' u Hi Hu. destruct (B1 s m' Hi) as [_ [_ C]]. exact (C s' u Hu).
        - destruct t as [b|b x fs k p]; [discriminate|]. injection E as <-. destruct (proj2 (proj2 (Ga _ _ _ _ _ eq_refl))) as [B0 [B1 B2]]. apply distinct_strings in B0.
          constructor; [exact (B2 eq_refl)|exact B0|]. intros s e Hi. exact (B1 s e Hi _ eq_refl).
        - destruct t as [b|b x fs k p]; [discriminate|]. destruct p; try discriminate E. injection E as <-.
          destruct (G SProperties _ eq_refl) as [B0 [B1 B2]]. apply distinct_strings in B0.
          constructor; [exact (B2 eq_refl)|exact B0|]. intros s u Hi. exact (B1 s u Hi). }
      constructor; [|exact N| |exact Fd].
      + apply (returns_tidy type_returns); [exact S|exact Fd| |].
        * destruct Ge as [B _]. apply distinct_keys in B. exact B.
        * unfold ann_keys_of. destruct t as [b|b x fs k p]; [constructor|]. destruct (proj1 (Ga _ _ _ _ _ eq_refl)) as [B _]. apply distinct_strings in B. exact B.
      + intros K. destruct Ge as [_ [B _]]. destruct (ents (d_extra t)) as [|[a v] r]; [reflexivity|]. destruct (B a v (or_introl eq_refl)) as [C _]. congruence.
  Qed.

  Lemma obj_split o : obj_returns o <-> rest_returns o /\ maps_return o.
  Proof.
    destruct o as [a|a|a|a|t]; [apply api_split|apply lib_split| | |apply type_split]; (split; [|exact (fun _ => I)]; intros _; split; [exact I|]; intros k s c K; discriminate K).
  Qed.

  (** ** Memory *)

  Definition fit (w : memory) : Prop := forall i o, view w i = Some o -> obj_returns o.

  Lemma returns_set s c o k : obj_returns o -> okind_of o = Some k -> cell_returns k s c -> obj_returns (set_map s c o).
  Proof.
    intros H K C. apply obj_split in H as [H1 H2]. apply obj_split. split; [apply rest_set; exact H1|].
    intros k' t c' K' G. rewrite kind_set, K in K'. injection K' as <-. destruct (slot_dec s t) as [<-|D].
    - destruct (get_map s o) as [c0|] eqn:G0.
      + destruct (cell_fits s c) eqn:Fc.
        * rewrite (get_set_same s c o c0 Fc G0) in G. injection G as <-. exact C.
        * rewrite set_misfit in G by exact Fc. exact (H2 _ _ _ K G).
      + rewrite set_none in G by exact G0. congruence.
    - rewrite get_set_other in G by exact D. exact (H2 _ _ _ K G).
  Qed.

  Lemma other_returns o : okind_of o = None -> obj_returns o.
  Proof. destruct o; try discriminate; intros _; exact I. Qed.

  Lemma blank_returns k s : cell_returns k s (blank_cell s).
  Proof. destruct s; (split; [constructor|]; split; [intros a v []|intros _ C; destruct (C eq_refl)]). Qed.

  Lemma returns_plain p o : obj_returns o -> (forall k, okind_of o = Some k -> plain_saves k p) -> obj_returns (plain_apply p o).
  Proof.
    intros H Hp. destruct p as [op|op|op|op|op]; destruct o as [a|a|a|a|t]; try exact H.
    - exact (api_apply_returns op a H (Hp _ eq_refl)).
    - exact (lib_apply_returns op a H (Hp _ eq_refl)).
    - exact (apply_returns op t H (Hp _ eq_refl)).
  Qed.

  Lemma fit_unset i s w : sound w -> fit w -> fit (unset_map i s w).
  Proof.
    intros S H j o V. destruct (view w i) as [oi|] eqn:Vi.
    - destruct (settable s oi) eqn:B.
      + destruct (view_unset w i s oi S Vi B) as [A1 [_ [_ [A4 _]]]]. destruct (Nat.eq_dec j i) as [->|N].
        * rewrite A1 in V. injection V as <-. destruct (okind_of oi) as [k|] eqn:K.
          -- apply (returns_set _ _ _ k); [exact (H _ _ Vi)|exact K|apply blank_returns].
          -- apply other_returns. rewrite kind_set. exact K.
        * rewrite A4 in V by exact N. exact (H _ _ V).
      + unfold unset_map in V. unfold view in Vi. destruct (nth_error (objects w) i) as [[o0 r0]|] eqn:E; [|discriminate]. injection Vi as <-.
        rewrite settable_with in B. rewrite B in V. exact (H _ _ V).
    - unfold unset_map in V. unfold view in Vi. destruct (nth_error (objects w) i) as [[o0 r0]|] eqn:E; [discriminate|]. exact (H _ _ V).
  Qed.

  Lemma fit_perform c w : sound w -> fit w -> call_saves w c -> fit (perform c w).
  Proof.
    intros S H Hc. destruct c as [o|c|r e|i s [r|]|i s|i p].
    - destruct (view_make w o S) as [A1 [_ A3]]. intros j o' V. destruct (Nat.lt_trichotomy j (List.length (objects w))) as [L|[->|L]].
      + rewrite (proj1 (A3 j L)) in V. exact (H _ _ V).
      + rewrite A1 in V. injection V as <-. exact Hc.
      + unfold view in V. cbn [perform objects] in V. rewrite (proj2 (nth_error_None _ _)) in V; [discriminate|]. rewrite app_length. cbn. lia.
    - intros j o V. unfold view in V. cbn [perform objects maps] in V. destruct (nth_error (objects w) j) as [[o0 r0]|] eqn:E; [|discriminate]. injection V as <-.
      rewrite with_more by exact (S j o0 r0 E). apply (H j). unfold view. rewrite E. reflexivity.
    - intros j o' V. destruct (view w j) as [o|] eqn:Vj.
      + destruct (view_edit w r e j o S Vj) as [o1 [V1 [E1 E2]]]. rewrite V1 in V. injection V as <-. pose proof (H _ _ Vj) as Ho. apply obj_split in Ho as [H1 H2].
        apply obj_split. split; [apply rest_strip; rewrite E1; apply rest_strip; exact H1|].
        intros k s c K G. rewrite <- kind_strip, E1, kind_strip in K. destruct (E2 s) as [E3 E4].
        destruct (got_dec (got w j s) r) as [Q|Q].
        * rewrite (E3 Q) in G. destruct (get_map s o) as [c0|] eqn:G0; [|discriminate]. injection G as <-. apply edit_returns; [exact (H2 _ _ _ K G0)|].
          exact (Hc j s o k c0 Q Vj K G0).
        * rewrite (E4 Q) in G. exact (H2 _ _ _ K G).
      + unfold view in V, Vj. cbn [perform objects] in V. destruct (nth_error (objects w) j) as [[o0 r0]|]; discriminate.
    - intros j o' V. destruct (view w i) as [oi|] eqn:Vi.
      + destruct (nth_error (maps w) r) as [c|] eqn:Er.
        * destruct (settable s oi && cell_fits s c) eqn:B.
          -- apply andb_true_iff in B as [B1 B2]. destruct (view_set_map w i s r oi c S Vi Er B1 B2) as [A1 [_ [_ [A4 _]]]]. destruct (Nat.eq_dec j i) as [->|N].
             ++ rewrite A1 in V. injection V as <-. destruct (okind_of oi) as [k|] eqn:K.
                ** apply (returns_set _ _ _ k); [exact (H _ _ Vi)|exact K|]. exact (Hc oi k c Vi K Er).
                ** apply other_returns. rewrite kind_set. exact K.
             ++ rewrite A4 in V by exact N. exact (H _ _ V).
          -- cbn [perform] in V. unfold view in Vi. destruct (nth_error (objects w) i) as [[o0 r0]|] eqn:E; [|discriminate]. injection Vi as <-.
             rewrite settable_with in B. rewrite Er, B in V. exact (H _ _ V).
        * cbn [perform] in V. rewrite Er in V. destruct (nth_error (objects w) i) as [[o0 r0]|]; exact (H _ _ V).
      + cbn [perform] in V. unfold view in Vi. destruct (nth_error (objects w) i) as [[o0 r0]|] eqn:E; [discriminate|]. exact (H _ _ V).
    - exact (fit_unset i s w S H).
    - exact (fit_unset i s w S H).
    - destruct (is_plain p) eqn:P; [|cbn [perform]; rewrite P; exact H].
      destruct (view_plain w i p S P) as [A1 [A2 _]]. intros j o' V. destruct (Nat.eq_dec j i) as [->|N].
      + rewrite A1 in V. destruct (view w i) as [oi|] eqn:Vi; [|discriminate]. injection V as <-. apply returns_plain; [exact (H _ _ Vi)|]. intros k K. exact (Hc oi k Vi K).
      + rewrite A2 in V by exact N. exact (H _ _ V).
  Qed.

  Lemma fit_performs cs : forall w, sound w -> fit w -> calls_save cs w -> fit (performs cs w).
  Proof.
    induction cs as [|c cs IH]; intros w S H Hc; [exact H|]. destruct Hc as [H1 H2]. cbn [performs fold_left]. fold (performs cs (perform c w)).
    apply IH; [apply sound_perform; exact S|apply fit_perform; assumption|exact H2].
  Qed.

  Lemma returns_survives o : obj_returns o -> survives o.
  Proof.
    intros H. destruct o as [a|a|a|a|t]; try exact I.
    - exact (api_round_trip a H).
    - exact (lib_round_trip a H).
    - destruct (round_trip t H) as [[n [t' A]] _]. exists n, t'. exact A.
  Qed.

  Lemma all_survive cs i o : calls_save cs no_memory -> view (performs cs no_memory) i = Some o -> survives o.
  Proof.
    intros H V. apply returns_survives. apply (fit_performs cs no_memory) with (i := i); [|intros j p C; destruct j; discriminate C|exact H|exact V].
    apply sound_reached. exists []. reflexivity.
  Qed.
End LiveSave.
