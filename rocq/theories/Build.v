(** C78: what can be built. *)
From Coq Require Import SpecFloat Relations.
From Verif Require Import Base Num OMap OMapSpec Keys Yaml Values Assign Formats Meta Out Xml Example DataType Marshal Doc Api Library
  AssignProofs TypeFacts Fields FacetSpec Segs WriteSpec RoundSpec ApiFields ApiSpec ApiRoundSpec FieldProofs FacetProofs DocProofs FieldProofs ReadInv WasRead Writable WriteProofs MapFacts
  Setters SetterSpec SetterProofs Live DeepMore BuildSpec.

(** ** Maps *)

Lemma made_flag {K V} keq (ok : V -> Prop) (m : amap K V) b : made keq ok m -> made keq ok (mkMap (ents m) b).
Proof. intros H. exact (made_edit keq ok m (OSerializeOrdered b) H (gives_ordered ok b)). Qed.

Lemma made_list {K V} keq (ok : V -> Prop) b : forall l : list (K * V), ForallOrdPairs (fun x y => keq (fst x) (fst y) = false) l -> Forall (fun e => ok (snd e)) l -> made keq ok (mkMap l b).
Proof.
  intros l. induction l as [|[k v] l IH] using rev_ind; intros P A.
  - exact (made_flag keq ok anew b (made_new keq ok)).
  - assert (PA : forall l1 (l2 : list (K * V)), ForallOrdPairs (fun x y => keq (fst x) (fst y) = false) (l1 ++ l2) ->
      ForallOrdPairs (fun x y => keq (fst x) (fst y) = false) l1 /\ forall x y, In x l1 -> In y l2 -> keq (fst x) (fst y) = false).
    { clear. induction l1 as [|a l1 IH]; intros l2 H; cbn [app] in H; [split; [constructor|intros x y []]|]. inversion H as [|? ? H1 H2]; subst. destruct (IH l2 H2) as [I1 I2]. split.
      - constructor; [|exact I1]. rewrite Forall_forall in *. intros x Hx. apply H1, in_or_app. left. exact Hx.
      - intros x y [<-|Hx] Hy; [rewrite Forall_forall in H1; apply H1, in_or_app; right; exact Hy|exact (I2 x y Hx Hy)]. }
    destruct (PA l [(k, v)] P) as [P1 P2]. apply Forall_app in A as [A1 A2]. inversion A2 as [|? ? Hv _]; subst.
    assert (E : mkMap (l ++ [(k, v)]) b = map_edit keq (OPut k v) (mkMap l b)).
    { unfold map_edit. cbn [sstep ents oord]. f_equal. unfold sput, sdelete. f_equal. assert (Q : forall e, In e l -> other keq k e = true).
      { intros e He. pose proof (P2 e (k, v) He (or_introl eq_refl)) as Q. cbn [fst] in Q. unfold other. rewrite Q. reflexivity. }
      clear -Q. induction l as [|e l IH]; [reflexivity|]. cbn [filter]. rewrite (Q e (or_introl eq_refl)). f_equal. apply IH. intros x Hx. apply Q. right. exact Hx. }
    rewrite E. apply made_edit; [exact (IH P1 A1)|]. apply gives_put. exact Hv.
Qed.
Lemma made_strings {V} (ok : V -> Prop) (m : amap string V) : NoDup (map fst (ents m)) -> (forall k v, In (k, v) (ents m) -> ok v) -> made String.eqb ok m.
Proof.
  destruct m as [l b]. cbn [ents]. intros N A. apply made_list; [|apply Forall_forall; intros [k v] H; exact (A k v H)].
  clear A. induction l as [|[k v] l IH]; [constructor|]. cbn [map fst] in N. inversion N as [|? ? N1 N2]; subst. constructor; [|exact (IH N2)]. apply Forall_forall. intros [k' v'] H. cbn [fst].
  apply String.eqb_neq. intros ->. apply N1. apply in_map_iff. exists (k', v'). auto.
Qed.
Lemma made_keys {V} (m : amap gkey V) : apart (map fst (ents m)) = true -> made gkey_eqb anything m.
Proof.
  destruct m as [l b]. cbn [ents]. intros A. apply made_list; [|apply Forall_forall; intros e _; exact I].
  induction l as [|[k v] l IH]; [constructor|]. cbn [map fst apart] in A. apply andb_true_iff in A as [A1 A2]. constructor; [|exact (IH A2)]. apply Forall_forall. intros e He. cbn [fst].
  rewrite forallb_forall in A1. specialize (A1 (fst e) (in_map fst _ _ He)). apply negb_true_iff in A1. exact A1.
Qed.

(** What is in such a map was put there. *)
Lemma made_all {K V} keq (ok : V -> Prop) (m : amap K V) : made keq ok m -> forall k v, In (k, v) (ents m) -> ok v.
Proof.
  induction 1 as [|m o M IH G]; intros k v H; [destruct H|]. unfold map_edit in H. cbn [ents] in H.
  assert (Hput : forall a w, ok w -> In (k, v) (sput keq a w (ents m)) -> ok v).
  { intros a w Hw Hi. unfold sput, sdelete in Hi. apply in_app_or in Hi as [Hi|[Hi|[]]]; [apply filter_In in Hi as [Hi _]; exact (IH _ _ Hi)|]. injection Hi as _ <-. exact Hw. }
  assert (Hrep : forall a w, ok w -> In (k, v) (sreplace keq a w (ents m)) -> ok v).
  { intros a w Hw Hi. unfold sreplace in Hi. apply in_map_iff in Hi as [[k1 v1] [E Hi]]. cbn [fst] in E. destruct (keq k1 a); injection E as E1 E2; subst; [exact Hw|exact (IH _ _ Hi)]. }
  destruct G as [a w Hw|a w Hw|a w Hw|a w Hw|a|a|b]; cbn [sstep] in H; eauto.
  - destruct (shas keq a (ents m)); eauto.
  - unfold sdelete in H. apply filter_In in H as [H _]. exact (IH _ _ H).
Qed.

(** ** Types *)

Lemma built_kind d : built_type d -> shaped d /\ In (d_kind d) rbuild_kinds.
Proof.
  induction 1 as [k H|d op _ IH _ _].
  - split; [apply shaped_new|]. replace (d_kind (new_type k)) with k by (destruct k; reflexivity). exact H.
  - destruct IH as [S H]. destruct (type_keeps (d_kind d) op d (conj S eq_refl)) as [S' K]. split; [exact S'|]. rewrite K. exact H.
Qed.
Lemma run_built ops : forall d, built_type d -> Forall (fun op => has_setter (d_kind d) op = true /\ gets built_type op) ops -> built_type (run type_apply ops d).
Proof.
  induction ops as [|op ops IH]; intros d B A; [exact B|]. inversion A as [|? ? [H G] A']; subst. unfold run. cbn [fold_left]. apply (IH (type_apply op d)).
  - exact (built_set d op B H G).
  - destruct (type_keeps (d_kind d) op d (conj (proj1 (built_kind d B)) eq_refl)) as [_ K]. rewrite K. exact A'.
Qed.

(** The calls that make [d]. *)
Definition common_ops (b : base) (x : ext) (fs : amap string (amap string dtype)) (c : common) : list type_op :=
  [TSetType (b_schema b); TSetExtraFacets (Some (b_extra b));
   match x_display x with Some s => TSetDisplayName s | None => TUnsetDisplayName end; match x_descr x with Some s => TSetDescription s | None => TUnsetDescription end;
   TSetAnnotations (Some (x_anns x)); TSetRequired (x_required x); TSetFacetDefinitions (Some fs); TSetDefault (c_def c); TSetExamples (Some (c_examples c)); TSetEnum (c_enum c)].
Definition own_ops (s : spec dtype) : list type_op :=
  match s with
  | SArray u mn mx it => [TSetUniqueItems u; TSetMinItems mn; TSetMaxItems mx; TSetItems it]
  | SInteger fm mn mx mu =>
    [TSetFormat fm; match mn with Some z => TSetMinimumInt z | None => TUnsetMinimum end; match mx with Some z => TSetMaximumInt z | None => TUnsetMaximum end;
     match mu with Some z => TSetMultipleOf z | None => TUnsetMultipleOf end]
  | SNumber fm mn mx mu =>
    [TSetFormat fm; match mn with Some z => TSetMinimumFloat z | None => TUnsetMinimum end; match mx with Some z => TSetMaximumFloat z | None => TUnsetMaximum end;
     match mu with Some z => TSetMultipleOf z | None => TUnsetMultipleOf end]
  | SString p mn mx => [match p with Some s => TSetPattern s | None => TUnsetPattern end; TSetMinLength mn; match mx with Some z => TSetMaxLength z | None => TUnsetMaxLength end]
  | _ => []
  end.
Lemma ops_make b x fs c s : In (b_kind b) rbuild_kinds -> same_spec s (new_spec (b_kind b)) = true -> c_example c = None -> x_xml x = None ->
  run type_apply (common_ops b x fs c ++ own_ops s) (new_type (b_kind b)) = TExt b x fs c s.
Proof.
  destruct b as [sc k ex], x as [di de an xm rq], c as [df e exs en]. cbn [b_kind c_example x_xml]. intros K S -> ->.
  destruct K as [<-|[<-|[<-|[<-|[<-|[<-|[]]]]]]]; destruct s as [|u mn mx it|fm|ft mn mx|fm mn mx mu|fm mn mx mu|ps mn mx ad di' dv|p mn mx]; try discriminate S; clear S.
  - destruct di, de; reflexivity.
  - destruct di, de; reflexivity.
  - destruct di, de; reflexivity.
  - destruct di, de, mn, mx, mu; reflexivity.
  - destruct di, de, mn, mx, mu; reflexivity.
  - destruct di, de, p, mx; reflexivity.
Qed.

Section Loaded.
  Context {F : FloatIO}.

  Lemma read_extra_apart n d : hat n = Ok d -> apart (extra_keys d) = true.
  Proof.
    intros H. destruct (is_map n) eqn:Em.
    2:{ rewrite (scalar_read n d Em H). apply tidy_new. }
    destruct n as [| |t l]; try discriminate. destruct (is_string (Map t l)) eqn:Es.
    { rewrite hat_eq in H. unfold hat_body in H. rewrite Es in H. injection H as <-. rewrite type_to_kind_eq. apply tidy_new. }
    assert (Ht : t <> TStr) by (intros ->; discriminate). exact (proj1 (extras_keys t l d Ht H)).
  Qed.

  Lemma type_buildable n : forall d, hat n = Ok d -> (forall t, anywhere_in t d -> plain_type t) -> built_type d.
  Proof.
    induction n as [n IH] using node_strong_ind. intros d H A. pose proof (hat_read n d H) as R. pose proof (hat_shaped n d H) as S. pose proof (read_extra_apart n d H) as X.
    destruct (A d (rt_refl _ _ _)) as [K [E1 [E2 E3]]]. destruct d as [b|b x fs c s]; [discriminate E1|]. destruct (shaped_cases b x fs c s S) as [_ [_ Sp]].
    assert (I' : forall t, inside t (TExt b x fs c s) -> (exists n', node_size n' < node_size n /\ hat n' = Ok t) -> built_type t).
    { intros t Hi [n' [Hn Ht]]. apply (IH n' Hn t Ht). intros u Hu. apply A. apply rt_trans with t; [exact Hu|apply rt_step; exact Hi]. }
    unfold d_kind in K. cbn [d_base] in K. cbn [getf] in E1, E3. injection E1 as E1. injection E3 as E3. rewrite <- (ops_make b x fs c s K Sp E1 E3).
    assert (Hk : d_kind (new_type (b_kind b)) = b_kind b) by (destruct (b_kind b); reflexivity).
    assert (Hext : forall op, match op with
        | TSetType _ | TSetExtraFacets _ | TSetDisplayName _ | TUnsetDisplayName | TSetDescription _ | TUnsetDescription | TSetAnnotations _ | TSetRequired _ | TSetFacetDefinitions _
        | TSetDefault _ | TSetExamples _ | TSetEnum _ => True | _ => False end -> has_setter (b_kind b) op = true).
    { clear -K. intros op Ho. destruct K as [<-|[<-|[<-|[<-|[<-|[<-|[]]]]]]]; destruct op; try contradiction; reflexivity. }
    apply run_built; [apply built_new; exact K|]. rewrite Hk. apply Forall_app. split.
    - unfold common_ops. repeat apply Forall_cons; try apply Forall_nil; (split; [try (apply Hext; exact I); destruct (x_display x), (x_descr x); apply Hext; exact I|]).
      + apply gets_other. reflexivity.
      + apply gets_extra, made_keys. exact X.
      + destruct (x_display x); apply gets_other; reflexivity.
      + destruct (x_descr x); apply gets_other; reflexivity.
      + apply gets_annotations. destruct (R FAnns (VAnns (x_anns x)) eq_refl) as [_ [N Q]]. apply made_strings; [exact N|]. intros k v Hv. destruct (Q k v Hv) as [_ [_ [N' _]]].
        apply made_strings; [exact N'|]. intros k' v' _. exact I.
      + apply gets_other. reflexivity.
      + apply gets_facets. destruct (R FFacets (VFacets fs) eq_refl) as [_ [N Q]]. apply made_strings; [exact N|]. intros k m Hm. destruct (Q k m Hm) as [_ [N' Q']].
        apply made_strings; [exact N'|]. intros k' t Ht. apply I'; [|exact (Q' k' t Ht)]. exact (inside_facets t (TExt b x fs c s) fs k m k' eq_refl Hm Ht).
      + apply gets_other. reflexivity.
      + apply gets_examples. apply made_strings; rewrite (E2 (c_examples c) eq_refl); [constructor|]. intros k v [].
      + apply gets_other. reflexivity.
    - destruct K as [K|[K|[K|[K|[K|[K|[]]]]]]]; rewrite <- K in *; clear K; destruct s as [|u mn mx it|fm|ft mn mx|fm mn mx mu|fm mn mx mu|ps mn mx ad di dv|p mn mx]; try discriminate Sp; clear Sp; cbn [own_ops].
      + constructor.
      + repeat apply Forall_cons; try apply Forall_nil; (split; [reflexivity|]); try (apply gets_other; reflexivity). destruct it as [t|]; [|apply gets_other; reflexivity].
        apply gets_items, I'; [exact (inside_items t (TExt b x fs c (SArray u mn mx (Some t))) eq_refl)|]. exact (R FItems (VOptType (Some t)) eq_refl).
      + constructor.
      + destruct mn, mx, mu; repeat apply Forall_cons; try apply Forall_nil; (split; [reflexivity|apply gets_other; reflexivity]).
      + destruct mn, mx, mu; repeat apply Forall_cons; try apply Forall_nil; (split; [reflexivity|apply gets_other; reflexivity]).
      + destruct p, mx; repeat apply Forall_cons; try apply Forall_nil; (split; [reflexivity|apply gets_other; reflexivity]).
  Qed.

  (** ** Documents *)

  Definition keys_once {V} (P : V -> Prop) (m : amap string V) : Prop := NoDup (map fst (ents m)) /\ forall k v, In (k, v) (ents m) -> P v.
  Definition loaded_type (t : dtype) : Prop := exists n, hat n = Ok t.

  Lemma once_new {V} (P : V -> Prop) b : keys_once P (mkMap [] b).
  Proof. split; [constructor|intros k v []]. Qed.
  Lemma once_read {V} (dec : node -> res V) (P : V -> Prop) m n m' : read_amap dec m n = Ok m' -> keys_once P m -> (forall nv v, dec nv = Ok v -> P v) -> keys_once P m'.
  Proof.
    intros H [N Q] D. destruct (read_amap_read dec (oord m) (fun _ => P) m n m' H) as [_ [N' Q']]; [split; [reflexivity|split; [exact N|exact Q]]|intros v nv _ Hv _; exact (D nv v Hv)|].
    split; [exact N'|exact Q'].
  Qed.
  Lemma once_put {V} (P : V -> Prop) k v (m : amap string V) : keys_once P m -> P v -> keys_once P (mput k v m).
  Proof. intros [N Q] Hv. destruct (map_read_put (oord m) (fun _ => P) m k v) as [_ [N' Q']]; [split; [reflexivity|split; [exact N|exact Q]]|exact Hv|]. split; [exact N'|exact Q']. Qed.
  Lemma once_made {V} (P Q : V -> Prop) (m : amap string V) : keys_once P m -> (forall k v, In (k, v) (ents m) -> P v -> Q v) -> made String.eqb Q m.
  Proof. intros [N A] H. apply made_strings; [exact N|]. intros k v Hv. exact (H k v Hv (A k v Hv)). Qed.
  Lemma once_any (m : untyped) : keys_once anything m -> built_untyped m.
  Proof. intros H. apply (once_made anything); [exact H|]. intros k v _ _. exact I. Qed.

  Definition api_once (a : api) : Prop :=
    keys_once anything (a_baseURIParameters a) /\ keys_once anything (a_traits a) /\ keys_once anything (a_resourceTypes a) /\ keys_once anything (a_annotationTypes a) /\
    keys_once anything (a_securitySchemes a) /\ keys_once anything (a_resources a) /\ keys_once anything (a_uses a) /\
    keys_once (keys_once anything) (a_annotations a) /\ keys_once loaded_type (a_types a) /\ apart (map fst (ents (a_extra a))) = true.
  Definition lib_once (a : library) : Prop :=
    keys_once anything (l_traits a) /\ keys_once anything (l_resourceTypes a) /\ keys_once anything (l_annotationTypes a) /\
    keys_once anything (l_securitySchemes a) /\ keys_once anything (l_uses a) /\
    keys_once (keys_once anything) (l_annotations a) /\ keys_once loaded_type (l_types a) /\ apart (map fst (ents (l_extra a))) = true.

  Lemma annotation_once v m : read_annotation v = Ok m -> keys_once (@anything gval) m.
  Proof. intros H. apply (once_read as_gnode anything anew v m H (once_new anything true)). intros; exact I. Qed.

  Lemma api_assign_once a e a' : api_assign a e = Ok a' -> api_once a -> api_once a'.
  Proof.
    unfold api_assign. intros H P. destruct (is_string (fst e)); cbn [negb] in H.
    2:{ apply bind_ok in H as [s [_ H]]. injection H as <-. destruct P as (P1 & P2 & P3 & P4 & P5 & P6 & P7 & P8 & P9 & P10). repeat (split; [assumption|]). apply kput_apart, P10. }
    destruct (value (fst e)) as [|c k]; [discriminate|]. destruct P as (P1 & P2 & P3 & P4 & P5 & P6 & P7 & P8 & P9 & P10).
    assert (U : forall m m', read_untyped m (snd e) = Ok m' -> keys_once anything m -> keys_once anything m').
    { intros m m' Hr Hm. apply (once_read as_gnode anything m (snd e) m' Hr Hm). intros; exact I. }
    repeat match type of H with (if ?b then _ else _) = _ => destruct b end;
      try (apply bind_ok in H as [v [Hv H]]); injection H as <-; refine (conj _ (conj _ (conj _ (conj _ (conj _ (conj _ (conj _ (conj _ (conj _ _)))))))));
      first [exact P1|exact P2|exact P3|exact P4|exact P5|exact P6|exact P7|exact P8|exact P9|exact P10|exact (U _ _ Hv ltac:(assumption))|apply once_put; [assumption|first [exact I|exact (annotation_once _ _ Hv)]]
            |apply (once_read to_str anything _ _ _ Hv P7); intros; exact I|apply (once_read hat loaded_type _ _ _ Hv P9); intros nv t Ht; exists nv; exact Ht|apply kput_apart, P10].
  Qed.
  Lemma lib_assign_once a e a' : lib_assign a e = Ok a' -> lib_once a -> lib_once a'.
  Proof.
    unfold lib_assign. intros H (P2 & P3 & P4 & P5 & P7 & P8 & P9 & P10).
    assert (U : forall m m', read_untyped m (snd e) = Ok m' -> keys_once anything m -> keys_once anything m').
    { intros m m' Hr Hm. apply (once_read as_gnode anything m (snd e) m' Hr Hm). intros; exact I. }
    assert (G : forall v, Ok (l_set_extra v a) = Ok a' -> apart (map fst (ents v)) = true -> lib_once a').
    { intros v E Hv. injection E as <-. exact (conj P2 (conj P3 (conj P4 (conj P5 (conj P7 (conj P8 (conj P9 Hv))))))). }
    repeat match type of H with (if String.eqb ?x ?y then _ else _) = _ => destruct (String.eqb x y) | (if String.eqb ?x ?y || _ then _ else _) = _ => destruct (String.eqb x y || _) end.
    all: try (apply bind_ok in H as [v [Hv H]]; injection H as <-; refine (conj _ (conj _ (conj _ (conj _ (conj _ (conj _ (conj _ _)))))));
      first [exact P2|exact P3|exact P4|exact P5|exact P7|exact P8|exact P9|exact P10|exact (U _ _ Hv ltac:(assumption))|apply (once_read read_annotation (keys_once anything) _ _ _ Hv P8); intros nv t Ht; exact (annotation_once _ _ Ht)
            |apply (once_read to_str anything _ _ _ Hv P7); intros; exact I|apply (once_read hat loaded_type _ _ _ Hv P9); intros nv t Ht; exists nv; exact Ht]).
    destruct (is_string (fst e)).
    - destruct (value (fst e)) as [|c k]; [discriminate|]. destruct (Ascii.eqb c "(").
      + apply bind_ok in H as [v [Hv H]]. injection H as <-. refine (conj P2 (conj P3 (conj P4 (conj P5 (conj P7 (conj _ (conj P9 P10))))))). apply once_put; [exact P8|exact (annotation_once _ _ Hv)].
      + apply bind_ok in H as [v [Hv H]]. apply (G _ H), kput_apart, P10.
    - apply bind_ok in H as [v [Hv H]]. apply (G _ H), kput_apart, P10.
  Qed.

  Lemma built_parameters_all m : made String.eqb anything m -> forall a, built_api a -> ents (a_baseURIParameters a) = [] -> built_api (a_set_baseURIParameters m a).
  Proof.
    induction 1 as [|m o _ IH G]; intros a B E.
    - pose proof (built_parameters a (OSerializeOrdered true) B (gives_ordered anything true)) as Q. unfold map_edit in Q. cbn [sstep] in Q. rewrite E in Q. exact Q.
    - exact (built_parameters _ o (IH a B E) G).
  Qed.
  Lemma built_resources_all m : made String.eqb anything m -> forall a, built_api a -> ents (a_resources a) = [] -> built_api (a_set_resources m a).
  Proof.
    induction 1 as [|m o _ IH G]; intros a B E.
    - pose proof (built_resources a (OSerializeOrdered true) B (gives_ordered anything true)) as Q. unfold map_edit in Q. cbn [sstep] in Q. rewrite E in Q. exact Q.
    - exact (built_resources _ o (IH a B E) G).
  Qed.
  Lemma built_extra_all m : made gkey_eqb anything m -> forall a, built_api a -> ents (a_extra a) = [] -> built_api (a_set_extra m a).
  Proof.
    induction 1 as [|m o _ IH G]; intros a B E.
    - pose proof (built_extra a (OSerializeOrdered true) B (gives_ordered anything true)) as Q. unfold map_edit in Q. cbn [sstep] in Q. rewrite E in Q. exact Q.
    - exact (built_extra _ o (IH a B E) G).
  Qed.
  Lemma built_schemes_all m : made String.eqb anything m -> forall a, built_lib a -> ents (l_securitySchemes a) = [] -> built_lib (l_set_securitySchemes m a).
  Proof.
    induction 1 as [|m o _ IH G]; intros a B E.
    - pose proof (built_schemes a (OSerializeOrdered true) B (gives_ordered anything true)) as Q. unfold map_edit in Q. cbn [sstep] in Q. rewrite E in Q. exact Q.
    - exact (built_schemes _ o (IH a B E) G).
  Qed.
  Lemma built_annotation_types_all m : made String.eqb anything m -> forall a, built_lib a -> ents (l_annotationTypes a) = [] -> built_lib (l_set_annotationTypes m a).
  Proof.
    induction 1 as [|m o _ IH G]; intros a B E.
    - pose proof (built_annotation_types a (OSerializeOrdered true) B (gives_ordered anything true)) as Q. unfold map_edit in Q. cbn [sstep] in Q. rewrite E in Q. exact Q.
    - exact (built_annotation_types _ o (IH a B E) G).
  Qed.
  Lemma built_lib_extra_all m : made gkey_eqb anything m -> forall a, built_lib a -> ents (l_extra a) = [] -> built_lib (l_set_extra m a).
  Proof.
    induction 1 as [|m o _ IH G]; intros a B E.
    - pose proof (built_lib_extra a (OSerializeOrdered true) B (gives_ordered anything true)) as Q. unfold map_edit in Q. cbn [sstep] in Q. rewrite E in Q. exact Q.
    - exact (built_lib_extra _ o (IH a B E) G).
  Qed.

  Lemma run_built_api ops : forall a, built_api a -> Forall api_gets ops -> built_api (run api_apply ops a).
  Proof. induction ops as [|op ops IH]; intros a B A; [exact B|]. inversion A as [|? ? G A']; subst. exact (IH _ (built_set_api a op B G) A'). Qed.
  Lemma run_built_lib ops : forall a, built_lib a -> Forall lib_gets ops -> built_lib (run lib_apply ops a).
  Proof. induction ops as [|op ops IH]; intros a B A; [exact B|]. inversion A as [|? ? G A']; subst. exact (IH _ (built_set_lib a op B G) A'). Qed.

  Definition api_ops (a : api) : list api_op :=
    [ASetTitle (a_title a); match a_description a with Some s => ASetDescription s | None => AUnsetDescription end; match a_version a with Some s => ASetVersion s | None => AUnsetVersion end;
     match a_baseURI a with Some s => ASetBaseURI s | None => AUnsetBaseURI end; ASetProtocols (a_protocols a); ASetMediaTypes (a_mediaType a); ASetDocumentation (a_documentation a);
     ASetTypes (Some (a_types a)); ASetTraits (Some (a_traits a)); ASetResourceTypes (Some (a_resourceTypes a)); ASetAnnotationTypes (Some (a_annotationTypes a));
     ASetAnnotations (Some (a_annotations a)); ASetSecuritySchemes (Some (a_securitySchemes a)); ASetSecuredBy (a_securedBy a); ASetUses (Some (a_uses a))].
  Definition lib_ops (a : library) : list lib_op :=
    [LSetAnnotations (Some (l_annotations a)); LSetUses (Some (l_uses a)); LSetResourceTypes (Some (l_resourceTypes a)); LSetTraits (Some (l_traits a)); LSetTypes (Some (l_types a));
     match l_usage a with Some s => LSetUsage s | None => LUnsetUsage end].

  Lemma types_buildable (m : amap string dtype) : keys_once loaded_type m -> (forall k d t, In (k, d) (ents m) -> anywhere_in t d -> plain_type t) -> built_types m.
  Proof. intros K A. apply (once_made loaded_type); [exact K|]. intros k d Hd [n Hn]. exact (type_buildable n d Hn (fun t => A k d t Hd)). Qed.
  Lemma annotations_buildable (m : amap string untyped) : keys_once (keys_once anything) m -> made String.eqb built_untyped m.
  Proof. intros K. apply (once_made (keys_once anything)); [exact K|]. intros k v _ Hv. exact (once_any v Hv). Qed.

  Lemma api_buildable n a : api_unmarshal n new_api = Ok a -> (a_documentation a = None \/ a_documentation a = Some []) ->
    (forall k d t, In (k, d) (ents (a_types a)) -> anywhere_in t d -> plain_type t) -> built_api a.
  Proof.
    unfold api_unmarshal, map_fold. destruct n as [t v|t l|t l]; try discriminate. intros H D A.
    assert (O : api_once a).
    { apply (fold_proper api_assign api_once api_assign_once l new_api a H). unfold api_once. repeat (split; [apply once_new|]). reflexivity. }
    destruct O as (P1 & P2 & P3 & P4 & P5 & P6 & P7 & P8 & P9 & P10). pose proof (types_buildable _ P9 A) as T. clear H A.
    assert (E : a = run api_apply (api_ops a) (a_set_extra (a_extra a) (a_set_resources (a_resources a) (a_set_baseURIParameters (a_baseURIParameters a) new_api)))).
    { destruct a as [ti [de|] [ve|] [bu|] bp pr me [doc|] ty tr rt ant an ss sb us re ex]; reflexivity. }
    rewrite E. apply run_built_api.
    - apply built_extra_all; [exact (made_keys _ P10)| |reflexivity]. apply built_resources_all; [exact (once_any _ P6)| |reflexivity].
      apply built_parameters_all; [exact (once_any _ P1)|exact built_new_api|reflexivity].
    - unfold api_ops. repeat apply Forall_cons; try apply Forall_nil; try exact I.
      + destruct (a_description a); exact I.
      + destruct (a_version a); exact I.
      + destruct (a_baseURI a); exact I.
      + destruct D as [->| ->]; [exact I|reflexivity].
      + exact T.
      + exact (once_any _ P2).
      + exact (once_any _ P3).
      + exact (once_any _ P4).
      + exact (annotations_buildable _ P8).
      + exact (once_any _ P5).
      + exact (once_made anything anything _ P7 (fun _ _ _ _ => I)).
  Qed.

  Lemma lib_buildable n a : lib_unmarshal n new_library = Ok a ->
    (forall k d t, In (k, d) (ents (l_types a)) -> anywhere_in t d -> plain_type t) -> built_lib a.
  Proof.
    unfold lib_unmarshal, map_fold. destruct n as [t v|t l|t l]; try discriminate. intros H A.
    assert (O : lib_once a).
    { apply (fold_proper lib_assign lib_once lib_assign_once l new_library a H). unfold lib_once. repeat (split; [apply once_new|]). reflexivity. }
    destruct O as (P2 & P3 & P4 & P5 & P7 & P8 & P9 & P10). pose proof (types_buildable _ P9 A) as T. clear H A.
    assert (E : a = run lib_apply (lib_ops a) (l_set_extra (l_extra a) (l_set_annotationTypes (l_annotationTypes a) (l_set_securitySchemes (l_securitySchemes a) new_library)))).
    { destruct a as [an ant ex us rt ss tr ty [usage|]]; reflexivity. }
    rewrite E. apply run_built_lib.
    - apply built_lib_extra_all; [exact (made_keys _ P10)| |reflexivity]. apply built_annotation_types_all; [exact (once_any _ P4)| |reflexivity].
      apply built_schemes_all; [exact (once_any _ P5)|exact built_new_lib|reflexivity].
    - unfold lib_ops. repeat apply Forall_cons; try apply Forall_nil.
      + exact (annotations_buildable _ P8).
      + exact (once_made anything anything _ P7 (fun _ _ _ _ => I)).
      + exact (once_any _ P3).
      + exact (once_any _ P2).
      + exact T.
      + destruct (l_usage a); exact I.
  Qed.
End Loaded.

(** ** What cannot be built *)

Lemma built_documentation a : built_api a -> a_documentation a = None \/ a_documentation a = Some [].
Proof. induction 1 as [|a op _ IH G|a o _ IH _|a o _ IH _|a o _ IH _]; [left; reflexivity| |exact IH|exact IH|exact IH]. destruct op as [ti|s| |s| |s| |l| |l| |[l|]| |m| |m| |m| |m| |m| |m| |m| |l| |m|]; try exact IH; [right; cbn in G; subst; reflexivity|left; reflexivity|left; reflexivity]. Qed.
Lemma made_blank {K V} keq (ok : V -> Prop) : made keq ok (@blank K V).
Proof. exact (made_new keq ok). Qed.
Lemma made_blank' {K V} keq (ok : V -> Prop) : made keq ok (@anew_unordered K V).
Proof. exact (made_flag keq ok anew false (made_new keq ok)). Qed.
Lemma built_api_types a : built_api a -> built_types (a_types a).
Proof. induction 1 as [|a op _ IH G|a o _ IH _|a o _ IH _|a o _ IH _]; [apply made_blank'| |exact IH|exact IH|exact IH]. destruct op as [ti|s| |s| |s| |l| |l| |l| |[m|]| |[m|]| |m| |m| |m| |m| |m| |l| |m|]; try exact IH; try exact G; apply made_blank. Qed.
Lemma built_lib_types a : built_lib a -> built_types (l_types a).
Proof. induction 1 as [|a op _ IH G|a o _ IH _|a o _ IH _|a o _ IH _]; [apply made_blank'| |exact IH|exact IH|exact IH]. destruct op as [m| |m| |m| |m| |[m|]| |[m|]| |s|]; try exact IH; try exact G; apply made_blank. Qed.

(** What a built type is made of was built. *)
Definition built_parts (d : dtype) : Prop :=
  (forall t, getf FItems d = Some (VOptType (Some t)) -> built_type t) /\ (forall m, getf FProps d = Some (VTypes m) -> built_types m) /\
  (forall m, getf FFacets d = Some (VFacets m) -> made String.eqb built_types m) /\
  getf FExample d = Some (VEx None) /\ (forall m, getf FExamples d = Some (VExs m) -> made String.eqb nothing m) /\ getf FXml d = Some (VXml None).
Lemma built_has d : built_type d -> built_parts d.
Proof.
  induction 1 as [k K|d op B IH S G].
  - destruct K as [<-|[<-|[<-|[<-|[<-|[<-|[]]]]]]]; (split; [intros t E; discriminate E|split; [intros m E; discriminate E|split; [intros m E; injection E as <-; first [apply made_blank'|apply made_blank]|
      split; [reflexivity|split; [intros m E; injection E as <-; first [apply made_blank'|apply made_blank]|reflexivity]]]]]).
  - destruct IH as (I1 & I2 & I3 & I4 & I5 & I6). destruct (built_kind d B) as [Sh K]. destruct d as [b|b x fs c s]; [discriminate I4|].
    destruct (shaped_cases b x fs c s Sh) as [_ [_ Sp]]. unfold d_kind in K, S. cbn [d_base] in K, S. clear Sh B.
    assert (Q : (match op with TSetItems (Some _) | TSetProperties (Some _) => False | _ => True end) ->
      (forall t, getf FItems (type_apply op (TExt b x fs c s)) = Some (VOptType (Some t)) -> built_type t) /\ (forall m, getf FProps (type_apply op (TExt b x fs c s)) = Some (VTypes m) -> built_types m)).
    { clear I3 I4 I5 I6 G. intros N. revert I1. destruct K as [K|[K|[K|[K|[K|[K|[]]]]]]]; rewrite <- K in Sp; clear K; destruct s as [|u mn mx it|fm|ft mn mx|fm mn mx mu|fm mn mx mu|ps mn mx ad di dv|p mn mx]; try discriminate Sp; clear Sp S; intros I1.
      2:{ split; [intros t E; destruct op|intros m E; destruct op; discriminate E]; try exact (I1 t E); try discriminate E.
          match goal with o : option dtype |- _ => destruct o; [contradiction|discriminate E] end. }
      all: split; intros t E; destruct op; discriminate E. }
    destruct G as [t Ht|m Hm|m Hm|m Hm|m Hm|m Hm|op Ho].
    + cbn [type_apply]. destruct s; (split; [|split; [|split; [|split; [|split]]]]); try assumption. intros t' E. injection E as <-. exact Ht.
    + destruct K as [K|[K|[K|[K|[K|[K|[]]]]]]]; rewrite <- K in S; discriminate S.
    + destruct (Q I) as [Q1 Q2]. split; [exact Q1|split; [exact Q2|split; [|split; [exact I4|split; [exact I5|exact I6]]]]]. intros m' E. injection E as <-. exact Hm.
    + destruct (Q I) as [Q1 Q2]. exact (conj Q1 (conj Q2 (conj I3 (conj I4 (conj I5 I6))))).
    + destruct (Q I) as [Q1 Q2]. exact (conj Q1 (conj Q2 (conj I3 (conj I4 (conj I5 I6))))).
    + destruct (Q I) as [Q1 Q2]. split; [exact Q1|split; [exact Q2|split; [exact I3|split; [exact I4|split; [|exact I6]]]]]. intros m' E. injection E as <-. exact Hm.
    + destruct Q as [Q1 Q2]; [destruct op; try exact I; match goal with |- match ?o with _ => _ end => destruct o; [discriminate Ho|exact I] end|]. split; [exact Q1|split; [exact Q2|clear Q1 Q2 I1 I2]].
      destruct op; try exact (conj I3 (conj I4 (conj I5 I6))).
      all: try match goal with o : option _ |- _ => destruct o; [discriminate Ho|] end.
      all: split; [first [exact I3|intros m' E; injection E as <-; exact (made_blank _ _)]|split; [first [exact I4|reflexivity]|split; [first [exact I5|intros m' E; injection E as <-; exact (made_blank _ _)]|first [exact I6|reflexivity]]]].
Qed.
Lemma built_inside t d : inside t d -> built_type d -> built_type t.
Proof.
  intros H B. destruct (built_has d B) as (I1 & I2 & I3 & _). destruct H as [d E|d m k E Hi|d m k m' k' E Hm Hi].
  - exact (I1 t E).
  - exact (made_all _ _ m (I2 m E) k t Hi).
  - exact (made_all _ _ m' (made_all _ _ m (I3 m E) k m' Hm) k' t Hi).
Qed.
Lemma built_plain t d : anywhere_in t d -> built_type d -> plain_type t.
Proof.
  intros H. assert (G : built_type d -> built_type t) by (induction H as [x y H|x|x y z _ I1 _ I2]; [exact (built_inside x y H)|auto|auto]).
  intros B. specialize (G B). destruct (built_has t G) as (_ & _ & _ & I4 & I5 & I6). split; [exact (proj2 (built_kind t G))|]. split; [exact I4|split; [|exact I6]].
  intros m E. destruct (ents m) as [|[k v] l] eqn:L; [reflexivity|]. destruct (made_all _ _ m (I5 m E) k v); rewrite L; left; reflexivity.
Qed.
