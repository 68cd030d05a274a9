(** Where in a saved document a call shows.  The vocabulary of C81. *)
From Coq Require Import SpecFloat.
From Verif Require Import Base Num OMap OMapSpec Keys Yaml Values Assign Formats Meta Out Xml Example DataType Marshal Doc Api Library Setters Live Objects.

(** ** Documents that are the same but for one place *)

(** Two lists of entries that are the same, and in the same order, but for entries whose key is one of [P]: these may be in the one or in the other only,
    or have other values. *)
Inductive others {K V} (P : K -> Prop) : list (K * V) -> list (K * V) -> Prop :=
| others_nil : others P [] []
| others_same e l l' : others P l l' -> others P (e :: l) (e :: l')
| others_old e l l' : P (fst e) -> others P l l' -> others P (e :: l) l'
| others_new e l l' : P (fst e) -> others P l l' -> others P l (e :: l').

(** An entry of a map that is saved as a sequence (SerializeOrdered) *)
Definition single (e : node * node) : node := Map TMap [e].
Definition type_key : node := str_node "type".

(** The same but for the entries [P] of the mapping to which the keys in the list lead.  A definition that has nothing but a type is saved as this type, without a mapping. *)
Inductive differ (P : node -> Prop) : list node -> node -> node -> Prop :=
| differ_not p n : differ P p n n
| differ_here t l l' : others P l l' -> differ P [] (Map t l) (Map t l')
| differ_here_ordered t l l' : others P l l' -> differ P [] (Seq t (map single l)) (Seq t (map single l'))
| differ_longer n l' : ~ P type_key -> (forall v, l' <> [(type_key, v)]) -> others P [(type_key, n)] l' -> differ P [] n (Map TMap l')
| differ_shorter l n' : ~ P type_key -> (forall v, l <> [(type_key, v)]) -> others P l [(type_key, n')] -> differ P [] (Map TMap l) n'
| differ_type t s t' s' : P type_key -> differ P [] (Scal t s) (Scal t' s')
| differ_in k p t l l' :
    Forall2 (fun e e' => fst e = fst e' /\ (snd e = snd e' \/ fst e = k /\ differ P p (snd e) (snd e'))) l l' -> differ P (k :: p) (Map t l) (Map t l')
| differ_in_ordered k p t l l' :
    Forall2 (fun e e' => fst e = fst e' /\ (snd e = snd e' \/ fst e = k /\ differ P p (snd e) (snd e'))) l l' ->
    differ P (k :: p) (Seq t (map single l)) (Seq t (map single l')).

(** ** The place of a call *)

(** In what the object is saved as: anywhere, or only the entries [P] of the mapping to which the keys lead. *)
Inductive spot : Type := Anywhere | Only (p : list node) (P : node -> Prop).
Definition nowhere : spot := Only [] (fun _ => False).
Definition inside (k : node) (s : spot) : spot := match s with Anywhere => Only [] (eq k) | Only p P => Only (k :: p) P end.

Definition entry (s : string) : spot := Only [] (eq (str_node s)).

(** A method of a map: the entry of its key.  How the map is saved as a whole depends on SerializeOrdered. *)
Definition op_key {K V} (o : op K V) : option K :=
  match o with
  | OPut k _ | OPutIfNotNil k _ | OReplaceOrPut k _ | OReplaceIfExists k _ | ODelete k => Some k
  | _ => None
  end.
Definition op_entry {V} (o : op string V) : spot := Only [] (fun n => match op_key o with Some k => n = str_node k | None => False end).
Definition map_spot {V} (o : op string V) : spot := match o with OSerializeOrdered _ => Anywhere | _ => op_entry o end.
(** Keys of an AnyMap: 0 and -0 are the same. *)
Definition same_key (k k' : gkey) : Prop := k = k' \/ gkey_eqb k k' = true.

Section Spots.
  Context {F : FloatIO}.

  (** Annotations and extra facets are entries of the mapping of what they are of.  A definition can be saved as its type alone, and what is called
      `type` may be a part of the form. *)
  Definition names_entries (l : list string) : spot := Only [] (fun n => exists k, n = str_node k /\ In k l).
  Definition keys_entries (l : list gkey) : spot := Only [] (fun n => exists k k', key_node k = Ok n /\ same_key k k' /\ In k' l).
  Definition names {V} (m : amap string V) : list string := map fst (ents m).
  Definition keys {V} (m : amap gkey V) : list gkey := map fst (ents m).
  Definition has_type (l : list gkey) : bool := existsb (gkey_eqb (KStr "type")) l.
  Definition unless_type (l : list gkey) (s : spot) : spot := if has_type l then Anywhere else s.

  Definition api_spot (op : api_op) (a : api) : spot :=
    match op with
    | ASetTitle _ => entry "title"
    | ASetDescription _ | AUnsetDescription => entry "description"
    | ASetVersion _ | AUnsetVersion => entry "version"
    | ASetBaseURI _ | AUnsetBaseURI => entry "baseUri"
    | ASetProtocols _ | AUnsetProtocols => entry "protocols"
    | ASetMediaTypes _ | AUnsetMediaTypes => entry "mediaType"
    | ASetDocumentation _ | AUnsetDocumentation => entry "documentation"
    | ASetTypes _ | AUnsetTypes | ASetSchemas _ | AUnsetSchemas => entry "types"
    | ASetTraits _ | AUnsetTraits => entry "traits"
    | ASetResourceTypes _ | AUnsetResourceTypes => entry "resourceTypes"
    | ASetAnnotationTypes _ | AUnsetAnnotationTypes => entry "annotationTypes"
    | ASetAnnotations m => names_entries (names (a_annotations a) ++ names (or_blank m))
    | AUnsetAnnotations => names_entries (names (a_annotations a))
    | ASetSecuritySchemes _ | AUnsetSecuritySchemes => entry "securitySchemes"
    | ASetSecuredBy _ | AUnsetSecuredBy => entry "securedBy"
    | ASetUses _ | AUnsetUses => entry "uses"
    end.
  Definition lib_spot (op : lib_op) (l : library) : spot :=
    match op with
    | LSetAnnotations m => names_entries (names (l_annotations l) ++ names (or_blank m))
    | LUnsetAnnotations => names_entries (names (l_annotations l))
    | LSetUses _ | LUnsetUses => entry "uses"
    | LSetResourceTypes _ | LUnsetResourceTypes => entry "resourceTypes"
    | LSetTraits _ | LUnsetTraits => entry "traits"
    | LSetTypes _ | LUnsetTypes | LSetSchemas _ | LUnsetSchemas => entry "types"
    | LSetUsage _ | LUnsetUsage => entry "usage"
    end.
  Definition type_spot (op : type_op) (b : base) (x : ext) : spot :=
    let anns m := let l := names (x_anns x) ++ names m in unless_type (map KStr l) (names_entries l) in
    let extra m := let l := keys (b_extra b) ++ keys m in unless_type l (keys_entries l) in
    match op with
    | TSetType _ => entry "type"
    | TSetDefault _ | TUnsetDefault => entry "default"
    | TSetExample _ | TUnsetExample => entry "example"
    | TSetExamples _ | TUnsetExamples => entry "examples"
    | TSetDisplayName _ | TUnsetDisplayName => entry "displayName"
    | TSetDescription _ | TUnsetDescription => entry "description"
    | TSetAnnotations m => anns (or_blank m)
    | TUnsetAnnotations => anns blank
    | TSetFacetDefinitions _ | TUnsetFacetDefinitions => entry "facets"
    | TSetXML _ | TUnsetXML => entry "xml"
    | TSetExtraFacets m => extra (or_blank m)
    | TUnsetExtraFacets => extra blank
    | TSetRequired _ => entry "required"
    | TSetEnum _ | TUnsetEnum => entry "enum"
    | TSetUniqueItems _ => entry "uniqueItems"
    | TSetMinItems _ => entry "minItems"
    | TSetMaxItems _ => entry "maxItems"
    | TSetItems _ | TUnsetItems => entry "items"
    | TSetFormat _ | TUnsetFormat => entry "format"
    | TSetFileTypes _ | TUnsetFileTypes => entry "fileTypes"
    | TSetMinLength _ => entry "minLength"
    | TSetMaxLength _ | TUnsetMaxLength => entry "maxLength"
    | TSetMinimumInt _ | TSetMinimumFloat _ | TUnsetMinimum => entry "minimum"
    | TSetMaximumInt _ | TSetMaximumFloat _ | TUnsetMaximum => entry "maximum"
    | TSetMultipleOf _ | TUnsetMultipleOf => entry "multipleOf"
    | TSetProperties _ | TUnsetProperties => entry "properties"
    | TSetMinProperties _ | TUnsetMinProperties => entry "minProperties"
    | TSetMaxProperties _ | TUnsetMaxProperties => entry "maxProperties"
    | TSetAdditionalProperties _ => entry "additionalProperties"
    | TSetDiscriminator _ | TUnsetDiscriminator => entry "discriminator"
    | TSetDiscriminatorValue _ | TUnsetDiscriminatorValue => entry "discriminatorValue"
    | TSetPattern _ | TUnsetPattern => entry "pattern"
    end.

  (** A call on the object itself *)
  Definition call_spot (a : act) (t : thing) : spot :=
    match a, t with
    | AcApi op, ThApi d => api_spot op d
    | AcLib op, ThLib l => lib_spot op l
    | AcDef op, ThDef (TExt b x _ _ _) => type_spot op b x
    | AcDefs o, ThDefs _ => map_spot o
    | AcFacets o, ThFacets _ => map_spot o
    | AcExs o, ThExs _ => map_spot o
    | AcUntyped o, ThUntyped _ => map_spot o
    | AcStrings o, ThStrings _ => map_spot o
    | AcAnns o, ThAnns _ => op_entry o
    | AcExtra o, ThExtra _ => match op_key o with Some k => keys_entries [k] | None => nowhere end
    | _, _ => Anywhere
    end.

  (** Under which key the fields are saved; those without a key give entries of their own *)
  Definition field_key (f : field) : option string :=
    match f with
    | FdTypes => Some "types"
    | FdTraits => Some "traits"
    | FdResourceTypes => Some "resourceTypes"
    | FdAnnotationTypes => Some "annotationTypes"
    | FdSecuritySchemes => Some "securitySchemes"
    | FdUses => Some "uses"
    | FdBaseUriParameters => Some "baseUriParameters"
    | FdDocumentation => Some "documentation"
    | FdXML => Some "xml"
    | FdFacetDefinitions => Some "facets"
    | FdExample => Some "example"
    | FdExamples => Some "examples"
    | FdItems => Some "items"
    | FdProperties => Some "properties"
    | FdAnnotations | FdResources | FdExtraFacets => None
    end.
  (** Maps in fields are saved if they are not empty *)
  Definition empty_map (t : thing) : bool :=
    match t with
    | ThDefs m => negb (nonempty m) | ThFacets m => negb (nonempty m) | ThExs m => negb (nonempty m)
    | ThUntyped m => negb (nonempty m) | ThStrings m => negb (nonempty m)
    | _ => false
    end.
  (** A call that concerns an annotation or extra facet called `type` *)
  Definition called_type (a : act) (ns : list name) : bool :=
    match ns with
    | NKey k :: _ => String.eqb k "type"
    | _ =>
      match a with
      | AcAnns o => match op_key o with Some k => String.eqb k "type" | None => false end
      | AcExtra o => match op_key o with Some k => gkey_eqb k (KStr "type") | None => false end
      | _ => false
      end
    end.

  (** A call on what getters lead to *)
  Fixpoint place (ns : list name) (a : act) (t : thing) : spot :=
    match ns with
    | [] => call_spot a t
    | n :: ns =>
      match get_part n t with
      | None => nowhere
      | Some q =>
        match t, n with
        | ThApi _, NField f | ThLib _, NField f | ThDef _, NField f =>
          match field_key f with
          | Some k =>
            if match ns with [] => empty_map q || empty_map (act_on a q) | _ => false end then entry k else inside (str_node k) (place ns a q)
          | None =>
            (* entries of [t] itself *)
            match t with
            | ThDef _ => if called_type a ns then Anywhere else place ns a q
            | _ => match q, a, ns with ThUntyped _, AcUntyped (OSerializeOrdered _), [] => nowhere | _, _, _ => place ns a q end
            end
          end
        | ThDefs _, NKey k | ThFacets _, NKey k | ThExs _, NKey k | ThAnns _, NKey k => inside (str_node k) (place ns a q)
        | _, _ => Anywhere
        end
      end
    end.

  (** What is saved is the same but for the place. *)
  Definition same_but (s : spot) (n n' : node) : Prop :=
    match s with Anywhere => True | Only p P => differ P p n n' end.
End Spots.
