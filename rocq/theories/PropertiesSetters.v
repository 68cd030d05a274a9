(** Properties C46 and C47: setters and getters. *)
From Coq Require Import SpecFloat.
From Verif Require Import Base Num OMap OMapSpec Keys Yaml Values Assign Formats Meta Out Xml Example DataType Marshal Doc Api Library
  TypeFacts Fields ApiFields Setters SetterSpec SetterProofs.

(** Some float conversion, for the examples. *)
#[local] Instance toy : FloatIO := {
  float_of := fun _ s => if String.eqb s "0.5" then Some (S754_finite false 1 (-1)) else None;
  float_text := fun _ => (TFloat, "0.5")
}.

Local Notation s_ := str_node.
Local Notation m_ := (Map TMap).

(** ** C46 *)

(** Every getter [f] of a type, after any sequence of setters the kind of type has. *)
Theorem C46_types k f ops d : shaped d -> d_kind d = k -> Forall (fun op => has_setter k op = true) ops ->
  last_setter (says_type k f) ops (getf f d) (getf f (run type_apply ops d)).
Proof. exact (type_setters k f ops d). Qed.
Print Assumptions C46_types.

(** The hypotheses hold of a new type of every kind, and setters preserve them. *)
Theorem C46_types_reachable k ops : shaped (run type_apply ops (new_type k)) /\ d_kind (run type_apply ops (new_type k)) = k.
Proof.
  assert (H : shaped (new_type k) /\ d_kind (new_type k) = k) by (split; [apply shaped_new|destruct k; reflexivity]).
  revert H. generalize (new_type k). induction ops as [|op ops IH]; intros d H; [exact H|]. apply (IH (type_apply op d)), type_keeps, H.
Qed.
Print Assumptions C46_types_reachable.

Example C46_types_case :
  let ops := [TSetMinLength 3; TSetMaxLength 9; TSetPattern "a"; TSetType "T"; TUnsetMaxLength; TSetMinLength 4; TSetRequired false] in
  Forall (fun op => has_setter TyString op = true) ops /\
  getf FMinLength (run type_apply ops (new_type TyString)) = Some (VInt 4) /\
  getf FMaxLength (run type_apply ops (new_type TyString)) = Some (VOptInt None) /\
  getf FPattern (run type_apply ops (new_type TyString)) = Some (VOptStr (Some "a")) /\
  getf FDescr (run type_apply ops (new_type TyString)) = Some (VOptStr None).
Proof. cbn zeta. repeat split; repeat constructor. Qed.

Theorem C46_api f ops a : last_setter (says_api f) ops (aget f a) (aget f (run api_apply ops a)).
Proof. exact (api_setters f ops a). Qed.
Print Assumptions C46_api.

Theorem C46_library f ops l : last_setter (says_lib f) ops (lget f l) (lget f (run lib_apply ops l)).
Proof. exact (lib_setters f ops l). Qed.
Print Assumptions C46_library.

Theorem C46_examples ops e :
  last_setter says_ex_display ops (ex_display e) (ex_display (run ex_apply ops e)) /\
  last_setter says_ex_description ops (ex_descr e) (ex_descr (run ex_apply ops e)) /\
  last_setter says_ex_annotations ops (ex_anns e) (ex_anns (run ex_apply ops e)) /\
  last_setter says_ex_value ops (ex_value e) (ex_value (run ex_apply ops e)) /\
  last_setter says_ex_strict ops (ex_strict e) (ex_strict (run ex_apply ops e)) /\
  ex_extra (run ex_apply ops e) = ex_extra e.
Proof. exact (ex_setters ops e). Qed.
Print Assumptions C46_examples.

Theorem C46_xml ops x :
  last_setter says_attribute ops (xml_attr x) (xml_attr (run xml_apply ops x)) /\
  last_setter says_wrapped ops (xml_wrap x) (xml_wrap (run xml_apply ops x)) /\
  last_setter says_name ops (xml_name x) (xml_name (run xml_apply ops x)) /\
  last_setter says_namespace ops (xml_ns x) (xml_ns (run xml_apply ops x)) /\
  last_setter says_prefix ops (xml_pref x) (xml_pref (run xml_apply ops x)) /\
  xml_extra (run xml_apply ops x) = xml_extra x.
Proof. exact (xml_setters ops x). Qed.
Print Assumptions C46_xml.

Theorem C46_documentation ops d :
  last_setter says_doc_title ops (doc_title d) (doc_title (run doc_apply ops d)) /\
  last_setter says_doc_content ops (doc_content d) (doc_content (run doc_apply ops d)) /\
  doc_extra (run doc_apply ops d) = doc_extra d.
Proof. exact (doc_setters ops d). Qed.
Print Assumptions C46_documentation.

(** [last_setter] determines the answer: the theorems above leave a getter no other choice. *)
Theorem C46_one_answer {Op V} (says : Op -> option V) ops b v w : last_setter says ops b v -> last_setter says ops b w -> v = w.
Proof. exact (last_setter_fun says ops b v w). Qed.
Print Assumptions C46_one_answer.

Example C46_case :
  a_version (run api_apply [ASetVersion "1"; ASetTitle "t"; AUnsetVersion; ASetVersion "2"; AUnsetDescription] new_api) = Some "2" /\
  l_usage (run lib_apply [LSetUsage "u"; LUnsetTraits; LUnsetUsage] new_library) = None /\
  ex_value (run ex_apply [ESetValue (Some (GInt 1)); ESetStrict false] new_ex) = Some (GInt 1) /\
  xml_name (run xml_apply [XSetName "a"; XSetPrefix "p"; XSetName "b"] new_xml) = Some "b" /\
  doc_title (run doc_apply [DSetTitle "a"; DSetContent "c"] new_doc) = "a".
Proof. repeat split. Qed.

(** ** C47 *)

(** SetX(nil) is UnsetX(), for every map-valued field of every object. *)
Theorem C47_nil_unsets :
  (forall d, type_apply (TSetExamples None) d = type_apply TUnsetExamples d /\
    type_apply (TSetAnnotations None) d = type_apply TUnsetAnnotations d /\
    type_apply (TSetFacetDefinitions None) d = type_apply TUnsetFacetDefinitions d /\
    type_apply (TSetExtraFacets None) d = type_apply TUnsetExtraFacets d /\
    type_apply (TSetProperties None) d = type_apply TUnsetProperties d) /\
  (forall a, api_apply (ASetTypes None) a = api_apply AUnsetTypes a /\
    api_apply (ASetSchemas None) a = api_apply AUnsetSchemas a /\
    api_apply (ASetTraits None) a = api_apply AUnsetTraits a /\
    api_apply (ASetResourceTypes None) a = api_apply AUnsetResourceTypes a /\
    api_apply (ASetAnnotationTypes None) a = api_apply AUnsetAnnotationTypes a /\
    api_apply (ASetAnnotations None) a = api_apply AUnsetAnnotations a /\
    api_apply (ASetSecuritySchemes None) a = api_apply AUnsetSecuritySchemes a /\
    api_apply (ASetUses None) a = api_apply AUnsetUses a) /\
  (forall l, lib_apply (LSetAnnotations None) l = lib_apply LUnsetAnnotations l /\
    lib_apply (LSetUses None) l = lib_apply LUnsetUses l /\
    lib_apply (LSetResourceTypes None) l = lib_apply LUnsetResourceTypes l /\
    lib_apply (LSetTraits None) l = lib_apply LUnsetTraits l /\
    lib_apply (LSetTypes None) l = lib_apply LUnsetTypes l /\
    lib_apply (LSetSchemas None) l = lib_apply LUnsetSchemas l) /\
  (forall e, ex_apply (ESetAnnotations None) e = ex_apply EUnsetAnnotations e).
Proof. split; [|split; [|split]]; intros x; repeat split. Qed.
Print Assumptions C47_nil_unsets.

(** Annotations, facet definitions and extra facets of a type: unset, they are again those of a new type, for every later operation. *)
Theorem C47_unset_is_new_partial k d : shaped d -> d_kind d = k -> k <> TyNil -> k <> TyInclude ->
  getf FAnns (type_apply TUnsetAnnotations d) = getf FAnns (new_type k) /\
  getf FFacets (type_apply TUnsetFacetDefinitions d) = getf FFacets (new_type k) /\
  getf FExtra (type_apply TUnsetExtraFacets d) = getf FExtra (new_type k).
Proof.
  intros S K N1 N2. unfold shaped in S. rewrite K in S. destruct d as [b|b x fs c s]; destruct k; try discriminate S; try congruence; repeat split.
Qed.
Print Assumptions C47_unset_is_new_partial.

Example C47_case : shaped (type_apply (TSetDescription "d") (new_type TyString)) /\ d_kind (type_apply (TSetDescription "d") (new_type TyString)) = TyString.
Proof. split; reflexivity. Qed.

(** The same entry put into the traits (uses, properties, examples) of two objects, of which one had them unset first. *)
Definition with_trait (a : api) : api := a_set_traits (mput "t" (GNode (m_ [])) (a_traits a)) a.
Definition with_use (l : library) : library := l_set_uses (mput "u" "x" (l_uses l)) l.

(** C47's second half is false: the unset map is written as a sequence, which the library itself does not read. *)
Theorem C47_unset_is_new_refuted (F : FloatIO) :
  (exists n n' a, api_marshal (with_trait new_api) = Ok n /\ api_unmarshal n new_api = Ok a /\
    api_marshal (with_trait (api_apply AUnsetTraits new_api)) = Ok n' /\ api_unmarshal n' new_api = Err) /\
  (exists n n' l, lib_marshal (with_use new_library) = Ok n /\ lib_unmarshal n new_library = Ok l /\
    lib_marshal (with_use (lib_apply LUnsetUses new_library)) = Ok n' /\ lib_unmarshal n' new_library = Err) /\
  getf FExamples (type_apply TUnsetExamples (new_type TyString)) <> getf FExamples (new_type TyString) /\
  getf FProps (type_apply TUnsetProperties (new_type TyObject)) <> getf FProps (new_type TyObject).
Proof.
  split; [|split; [|split; discriminate]]; do 3 eexists; repeat split.
Qed.
Print Assumptions C47_unset_is_new_refuted.

(** Whatever else is done, the contents agree with those of an object that was left alone: only how they are written differs. *)
Theorem C47_contents_partial {V} (puts : list (string * V)) :
  ents (fold_left (fun m e => mput (fst e) (snd e) m) puts blank) = ents (fold_left (fun m e => mput (fst e) (snd e) m) puts anew_unordered).
Proof.
  assert (H : forall m m' : amap string V, ents m = ents m' ->
    ents (fold_left (fun m e => mput (fst e) (snd e) m) puts m) = ents (fold_left (fun m e => mput (fst e) (snd e) m) puts m')).
  { induction puts as [|e puts IH]; intros m m' E; [exact E|]. cbn [fold_left]. apply IH. unfold mput. cbn [ents]. rewrite E. reflexivity. }
  apply H. reflexivity.
Qed.
Print Assumptions C47_contents_partial.

Example C47_contents_case :
  ents (fold_left (fun m e => mput (fst e) (snd e) m) [("a", 1%Z); ("b", 2%Z); ("a", 3%Z)] blank) <> [].
Proof. discriminate. Qed.
