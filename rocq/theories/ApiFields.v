(** API documents and libraries by their fields. *)
From Coq Require Import SpecFloat.
From Verif Require Import Base Num OMap OMapSpec Keys Yaml Values Assign Formats Meta Out Xml Example DataType Marshal Doc Api Library
  AssignProofs FieldProofs Segs Lens Parts.

(** ** API documents *)

Inductive afield : Type :=
| ATitle | AVersion | ABaseURI | ADescription | AProtocols | AMediaType | ADocumentation | ASecuredBy | AUses | ASecuritySchemes
| ABaseURIParameters | ATraits | AAnnotationTypes | AResourceTypes | AAnnotations | AExtra | AResources | ATypes.

Definition aty (f : afield) : Type :=
  match f with
  | ATitle => string
  | AVersion | ABaseURI | ADescription => option string
  | AProtocols | AMediaType | ASecuredBy => option (list string)
  | ADocumentation => option (list doc)
  | AUses => amap string string
  | ASecuritySchemes | ABaseURIParameters | ATraits | AAnnotationTypes | AResourceTypes | AResources => untyped
  | AAnnotations => amap string untyped
  | AExtra => amap gkey gval
  | ATypes => amap string dtype
  end.

(** The getters: Title(), Version(), ... *)
Definition aget (f : afield) : api -> aty f :=
  match f with
  | ATitle => a_title | AVersion => a_version | ABaseURI => a_baseURI | ADescription => a_description | AProtocols => a_protocols
  | AMediaType => a_mediaType | ADocumentation => a_documentation | ASecuredBy => a_securedBy | AUses => a_uses
  | ASecuritySchemes => a_securitySchemes | ABaseURIParameters => a_baseURIParameters | ATraits => a_traits
  | AAnnotationTypes => a_annotationTypes | AResourceTypes => a_resourceTypes | AAnnotations => a_annotations | AExtra => a_extra
  | AResources => a_resources | ATypes => a_types
  end.

Definition aset (f : afield) : aty f -> api -> api :=
  match f with
  | ATitle => a_set_title | AVersion => a_set_version | ABaseURI => a_set_baseURI | ADescription => a_set_description | AProtocols => a_set_protocols
  | AMediaType => a_set_mediaType | ADocumentation => a_set_documentation | ASecuredBy => a_set_securedBy | AUses => a_set_uses
  | ASecuritySchemes => a_set_securitySchemes | ABaseURIParameters => a_set_baseURIParameters | ATraits => a_set_traits
  | AAnnotationTypes => a_set_annotationTypes | AResourceTypes => a_set_resourceTypes | AAnnotations => a_set_annotations | AExtra => a_set_extra
  | AResources => a_set_resources | ATypes => a_set_types
  end.

Lemma afield_dec (f g : afield) : {f = g} + {f <> g}.
Proof. decide equality. Defined.

Lemma aget_aset_same f v a : aget f (aset f v a) = v.
Proof. destruct f; reflexivity. Qed.

Lemma aget_aset_other f g v a : f <> g -> aget g (aset f v a) = aget g a.
Proof. destruct f, g; intros H; try reflexivity; congruence. Qed.

(** Two API documents with the same answers are the same. *)
Lemma api_ext a b : (forall f, aget f a = aget f b) -> a = b.
Proof.
  intros H. pose proof (H ATitle) as H1. pose proof (H AVersion) as H2. pose proof (H ABaseURI) as H3. pose proof (H ADescription) as H4.
  pose proof (H AProtocols) as H5. pose proof (H AMediaType) as H6. pose proof (H ADocumentation) as H7. pose proof (H ASecuredBy) as H8.
  pose proof (H AUses) as H9. pose proof (H ASecuritySchemes) as H10. pose proof (H ABaseURIParameters) as H11. pose proof (H ATraits) as H12.
  pose proof (H AAnnotationTypes) as H13. pose proof (H AResourceTypes) as H14. pose proof (H AAnnotations) as H15. pose proof (H AExtra) as H16.
  pose proof (H AResources) as H17. pose proof (H ATypes) as H18. destruct a, b. cbn in *. subst. reflexivity.
Qed.

(** The field a key belongs to. *)
Definition api_keys : list (string * afield) :=
  [("title", ATitle); ("version", AVersion); ("baseUri", ABaseURI); ("description", ADescription); ("protocols", AProtocols);
   ("mediaType", AMediaType); ("documentation", ADocumentation); ("securedBy", ASecuredBy); ("uses", AUses);
   ("securitySchemes", ASecuritySchemes); ("baseUriParameters", ABaseURIParameters); ("traits", ATraits);
   ("annotationTypes", AAnnotationTypes); ("resourceTypes", AResourceTypes); ("types", ATypes); ("schemas", ATypes)].

Fixpoint look {A} (s : string) (l : list (string * A)) : option A :=
  match l with [] => None | (k, a) :: t => if String.eqb s k then Some a else look s t end.

(** [None] is the empty key. *)
Definition api_target (e : node * node) : option afield :=
  if is_string (fst e) then
    match value (fst e) with
    | EmptyString => None
    | String c _ =>
      if Ascii.eqb c "(" then Some AAnnotations else if Ascii.eqb c "/" then Some AResources
      else match look (value (fst e)) api_keys with Some f => Some f | None => Some AExtra end
    end
  else Some AExtra.

Section Steps.
  Context {F : FloatIO}.

  (** What a pair does to its field. *)
  Definition api_step (f : afield) : aty f -> node * node -> res (aty f) :=
    match f with
    | ATitle => fun old e => run_assign (as_string (snd e) old)
    | AVersion | ABaseURI | ADescription => fun old e => run_assign (as_string_ptr (snd e) old)
    | AProtocols | ASecuredBy => fun old e => run_assign (as_string_list (snd e) old)
    | AMediaType => fun old e => read_media (snd e) old
    | ADocumentation => fun old e => read_docs (snd e) old
    | AUses => fun old e => read_strings old (snd e)
    | ASecuritySchemes | ABaseURIParameters | ATraits | AAnnotationTypes | AResourceTypes => fun old e => read_untyped old (snd e)
    | AResources => fun old e => Ok (mput (value (fst e)) (GNode (snd e)) old)
    | AAnnotations => fun old e => do m <- read_annotation (snd e); Ok (mput (value (fst e)) m old)
    | AExtra => fun old e => do k <- to_scalar (fst e); Ok (kput k (GNode (snd e)) old)
    | ATypes => fun old e => read_types old (snd e)
    end.

  Lemma api_assign_step a e : api_assign a e =
    match api_target e with None => Panic | Some f => do v <- api_step f (aget f a) e; Ok (aset f v a) end.
  Proof.
    unfold api_assign, api_target. destruct (is_string (fst e)); [|cbn; destruct (to_scalar (fst e)); reflexivity]. cbn [negb].
    destruct (value (fst e)) as [|c r] eqn:Ev; [reflexivity|].
    destruct (Ascii.eqb c "("). { cbn. rewrite Ev. destruct (read_annotation (snd e)); reflexivity. }
    destruct (Ascii.eqb c "/"). { cbn. rewrite Ev. reflexivity. }
    rewrite <- Ev. unfold api_keys. cbn [look].
    repeat match goal with |- context [String.eqb (value (fst e)) ?s] => destruct (String.eqb (value (fst e)) s); cbn [orb]; [reflexivity|] end.
    cbn. destruct (to_scalar (fst e)); reflexivity.
  Qed.

  (** The instances of Parts.v. *)
  Definition api_mine (f : afield) (e : node * node) : bool := mine afield_dec api_target f e.

  Lemma api_fold l a a' : fold_res api_assign a l = Ok a' -> forall f, fold_res (api_step f) (aget f a) (filter (api_mine f) l) = Ok (aget f a').
  Proof. exact (parts_fold aty aget aset afield_dec api_target api_step api_assign api_assign_step aget_aset_same aget_aset_other l a a'). Qed.
End Steps.

(** ** Libraries *)

Inductive lfield : Type :=
| LUsage | LUses | LSecuritySchemes | LTraits | LAnnotationTypes | LAnnotations | LResourceTypes | LExtra | LTypes.

Definition lty (f : lfield) : Type :=
  match f with
  | LUsage => option string
  | LUses => amap string string
  | LSecuritySchemes | LTraits | LAnnotationTypes | LResourceTypes => untyped
  | LAnnotations => amap string untyped
  | LExtra => amap gkey gval
  | LTypes => amap string dtype
  end.

Definition lget (f : lfield) : library -> lty f :=
  match f with
  | LUsage => l_usage | LUses => l_uses | LSecuritySchemes => l_securitySchemes | LTraits => l_traits | LAnnotationTypes => l_annotationTypes
  | LAnnotations => l_annotations | LResourceTypes => l_resourceTypes | LExtra => l_extra | LTypes => l_types
  end.

Definition lset (f : lfield) : lty f -> library -> library :=
  match f with
  | LUsage => l_set_usage | LUses => l_set_uses | LSecuritySchemes => l_set_securitySchemes | LTraits => l_set_traits
  | LAnnotationTypes => l_set_annotationTypes | LAnnotations => l_set_annotations | LResourceTypes => l_set_resourceTypes | LExtra => l_set_extra
  | LTypes => l_set_types
  end.

Lemma lfield_dec (f g : lfield) : {f = g} + {f <> g}.
Proof. decide equality. Defined.

Lemma lget_lset_same f v l : lget f (lset f v l) = v.
Proof. destruct f; reflexivity. Qed.

Lemma lget_lset_other f g v l : f <> g -> lget g (lset f v l) = lget g l.
Proof. destruct f, g; intros H; try reflexivity; congruence. Qed.

Lemma lib_ext a b : (forall f, lget f a = lget f b) -> a = b.
Proof.
  intros H. pose proof (H LUsage) as H1. pose proof (H LUses) as H2. pose proof (H LSecuritySchemes) as H3. pose proof (H LTraits) as H4.
  pose proof (H LAnnotationTypes) as H5. pose proof (H LAnnotations) as H6. pose proof (H LResourceTypes) as H7. pose proof (H LExtra) as H8.
  pose proof (H LTypes) as H9. destruct a, b. cbn in *. subst. reflexivity.
Qed.

(** The field a known key goes to in the code; annotationTypes goes to the annotations. *)
Definition lib_keys : list (string * lfield) :=
  [("annotationTypes", LAnnotations); ("resourceTypes", LResourceTypes); ("types", LTypes); ("schemas", LTypes); ("traits", LTraits); ("uses", LUses);
   ("usage", LUsage); ("securitySchemes", LSecuritySchemes)].

Definition lib_target (e : node * node) : option lfield :=
  match look (value (fst e)) lib_keys with
  | Some f => Some f
  | None =>
    if is_string (fst e) then
      match value (fst e) with
      | EmptyString => None
      | String c _ => if Ascii.eqb c "(" then Some LAnnotations else Some LExtra
      end
    else Some LExtra
  end.

Section LibSteps.
  Context {F : FloatIO}.

  Definition lib_step (f : lfield) : lty f -> node * node -> res (lty f) :=
    match f with
    | LUsage => fun old e => run_assign (as_string_ptr (snd e) old)
    | LUses => fun old e => read_strings old (snd e)
    | LSecuritySchemes | LTraits | LAnnotationTypes | LResourceTypes => fun old e => read_untyped old (snd e)
    | LAnnotations => fun old e =>
      if String.eqb (value (fst e)) "annotationTypes" then read_annotations old (snd e)
      else do m <- read_annotation (snd e); Ok (mput (value (fst e)) m old)
    | LExtra => fun old e => do k <- to_scalar (fst e); Ok (kput k (GNode (snd e)) old)
    | LTypes => fun old e => read_types old (snd e)
    end.

  Lemma lib_assign_step l e : lib_assign l e =
    match lib_target e with None => Panic | Some f => do v <- lib_step f (lget f l) e; Ok (lset f v l) end.
  Proof.
    unfold lib_assign, lib_target, lib_keys. cbn [look].
    destruct (String.eqb (value (fst e)) "annotationTypes") eqn:E1. { cbn. rewrite E1. reflexivity. }
    repeat match goal with |- context [String.eqb (value (fst e)) ?s] =>
      lazymatch s with "annotationTypes" => fail | _ => destruct (String.eqb (value (fst e)) s); cbn [orb]; [reflexivity|] end end.
    destruct (is_string (fst e)).
    - destruct (value (fst e)) as [|c r] eqn:Ev; [reflexivity|]. destruct (Ascii.eqb c "(").
      + cbn [lib_step lget lset]. rewrite Ev, E1. destruct (read_annotation (snd e)); reflexivity.
      + cbn. destruct (to_scalar (fst e)); reflexivity.
    - cbn. destruct (to_scalar (fst e)); reflexivity.
  Qed.

  Definition lib_mine (f : lfield) (e : node * node) : bool := mine lfield_dec lib_target f e.

  Lemma lib_fold l a a' : fold_res lib_assign a l = Ok a' -> forall f, fold_res (lib_step f) (lget f a) (filter (lib_mine f) l) = Ok (lget f a').
  Proof. exact (parts_fold lty lget lset lfield_dec lib_target lib_step lib_assign lib_assign_step lget_lset_same lget_lset_other l a a'). Qed.
End LibSteps.
