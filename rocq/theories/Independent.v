(** Which calls have nothing to do with each other, and which calls make others void.  The vocabulary of C84 and C85. *)
From Coq Require Import SpecFloat.
From Verif Require Import Base Num OMap OMapSpec Keys Yaml Values Assign Formats Meta Out Xml Example DataType Marshal Doc Api Library TypeFacts Setters SetterSpec Live Objects.
From Verif Require Fields.

(** ** What a call is about *)

(** A getter of its object; a key of a map, or in which form the map is saved; a place of a slice; nothing (methods that only look). *)
Inductive topic : Type := OfGetter (s : string) | OfKey (k : gkey) | OfForm | OfSlot (i : nat) | OfNothing.

Definition api_topic (op : api_op) : string :=
  match op with
  | ASetTitle _ => "Title"
  | ASetVersion _ | AUnsetVersion => "Version"
  | ASetBaseURI _ | AUnsetBaseURI => "BaseURI"
  | ASetDescription _ | AUnsetDescription => "Description"
  | ASetProtocols _ | AUnsetProtocols => "Protocols"
  | ASetMediaTypes _ | AUnsetMediaTypes => "MediaTypes"
  | ASetDocumentation _ | AUnsetDocumentation => "Documentation"
  | ASetTypes _ | AUnsetTypes | ASetSchemas _ | AUnsetSchemas => "Types"
  | ASetTraits _ | AUnsetTraits => "Traits"
  | ASetResourceTypes _ | AUnsetResourceTypes => "ResourceTypes"
  | ASetAnnotationTypes _ | AUnsetAnnotationTypes => "AnnotationTypes"
  | ASetAnnotations _ | AUnsetAnnotations => "Annotations"
  | ASetSecuritySchemes _ | AUnsetSecuritySchemes => "SecuritySchemes"
  | ASetSecuredBy _ | AUnsetSecuredBy => "SecuredBy"
  | ASetUses _ | AUnsetUses => "Uses"
  end.
Definition lib_topic (op : lib_op) : string :=
  match op with
  | LSetAnnotations _ | LUnsetAnnotations => "Annotations"
  | LSetUses _ | LUnsetUses => "Uses"
  | LSetResourceTypes _ | LUnsetResourceTypes => "ResourceTypes"
  | LSetTraits _ | LUnsetTraits => "Traits"
  | LSetTypes _ | LUnsetTypes | LSetSchemas _ | LUnsetSchemas => "Types"
  | LSetUsage _ | LUnsetUsage => "Usage"
  end.
Definition type_topic (op : type_op) : string :=
  match op with
  | TSetType _ => "Type"
  | TSetDefault _ | TUnsetDefault => "Default"
  | TSetExample _ | TUnsetExample => "Example"
  | TSetExamples _ | TUnsetExamples => "Examples"
  | TSetDisplayName _ | TUnsetDisplayName => "DisplayName"
  | TSetDescription _ | TUnsetDescription => "Description"
  | TSetAnnotations _ | TUnsetAnnotations => "Annotations"
  | TSetFacetDefinitions _ | TUnsetFacetDefinitions => "FacetDefinitions"
  | TSetXML _ | TUnsetXML => "XML"
  | TSetExtraFacets _ | TUnsetExtraFacets => "ExtraFacets"
  | TSetRequired _ => "Required"
  | TSetEnum _ | TUnsetEnum => "Enum"
  | TSetUniqueItems _ => "UniqueItems"
  | TSetMinItems _ => "MinItems"
  | TSetMaxItems _ => "MaxItems"
  | TSetItems _ | TUnsetItems => "Items"
  | TSetFormat _ | TUnsetFormat => "Format"
  | TSetFileTypes _ | TUnsetFileTypes => "FileTypes"
  | TSetMinLength _ => "MinLength"
  | TSetMaxLength _ | TUnsetMaxLength => "MaxLength"
  | TSetMinimumInt _ | TSetMinimumFloat _ | TUnsetMinimum => "Minimum"
  | TSetMaximumInt _ | TSetMaximumFloat _ | TUnsetMaximum => "Maximum"
  | TSetMultipleOf _ | TUnsetMultipleOf => "MultipleOf"
  | TSetProperties _ | TUnsetProperties => "Properties"
  | TSetMinProperties _ | TUnsetMinProperties => "MinProperties"
  | TSetMaxProperties _ | TUnsetMaxProperties => "MaxProperties"
  | TSetAdditionalProperties _ => "AdditionalProperties"
  | TSetDiscriminator _ | TUnsetDiscriminator => "Discriminator"
  | TSetDiscriminatorValue _ | TUnsetDiscriminatorValue => "DiscriminatorValue"
  | TSetPattern _ | TUnsetPattern => "Pattern"
  end.
Definition ex_topic (op : ex_op) : string :=
  match op with
  | ESetDisplayName _ | EUnsetDisplayName => "DisplayName"
  | ESetDescription _ | EUnsetDescription => "Description"
  | ESetAnnotations _ | EUnsetAnnotations => "Annotations"
  | ESetValue _ | EUnsetValue => "Value"
  | ESetStrict _ => "Strict"
  end.
Definition xml_topic (op : xml_op) : string :=
  match op with
  | XSetIsAttribute _ | XUnsetIsAttribute => "IsAttribute"
  | XSetIsWrapped _ | XUnsetIsWrapped => "IsWrapped"
  | XSetName _ | XUnsetName => "Name"
  | XSetNamespace _ | XUnsetNamespace => "Namespace"
  | XSetPrefix _ | XUnsetPrefix => "Prefix"
  end.
Definition doc_topic (op : doc_op) : string := match op with DSetTitle _ => "Title" | DSetContent _ => "Content" end.
Definition map_topic {K V} (key : K -> gkey) (o : op K V) : topic :=
  match o with
  | OPut k _ | OPutIfNotNil k (Some _) | OReplaceOrPut k _ | OReplaceIfExists k _ | ODelete k => OfKey (key k)
  | OSerializeOrdered _ => OfForm
  | _ => OfNothing
  end.
Definition topic_of (a : act) : topic :=
  match a with
  | AcApi op => OfGetter (api_topic op)
  | AcLib op => OfGetter (lib_topic op)
  | AcDef op => OfGetter (type_topic op)
  | AcEx op => OfGetter (ex_topic op)
  | AcXml op => OfGetter (xml_topic op)
  | AcDoc op => OfGetter (doc_topic op)
  | AcDefs o => map_topic KStr o
  | AcFacets o => map_topic KStr o
  | AcExs o => map_topic KStr o
  | AcAnns o => map_topic KStr o
  | AcUntyped o => map_topic KStr o
  | AcStrings o => map_topic KStr o
  | AcExtra o => map_topic (fun k => k) o
  end.

(** The getter in a chain *)
Definition getter (f : field) : string :=
  match f with
  | FdTypes => "Types" | FdTraits => "Traits" | FdResourceTypes => "ResourceTypes" | FdAnnotationTypes => "AnnotationTypes" | FdAnnotations => "Annotations"
  | FdSecuritySchemes => "SecuritySchemes" | FdUses => "Uses" | FdResources => "Resources" | FdBaseUriParameters => "BaseUriParameters" | FdExtraFacets => "ExtraFacets"
  | FdDocumentation => "Documentation" | FdXML => "XML" | FdFacetDefinitions => "FacetDefinitions" | FdExample => "Example" | FdExamples => "Examples"
  | FdItems => "Items" | FdProperties => "Properties"
  end.
Definition name_topic (n : name) : topic := match n with NField f => OfGetter (getter f) | NKey k => OfKey (KStr k) | NIndex i => OfSlot i end.

Definition unlike (x y : topic) : Prop :=
  match x, y with
  | OfGetter s, OfGetter s' => s <> s'
  | OfKey k, OfKey k' => gkey_eqb k k' = false
  | OfForm, OfForm => False
  | OfSlot i, OfSlot j => i <> j
  | _, _ => True
  end.

(** ** Separate calls *)

(** It may add a key to its map. *)
Definition op_adds {K V} (o : op K V) : bool := match o with OPut _ _ | OPutIfNotNil _ (Some _) | OReplaceOrPut _ _ => true | _ => false end.
Definition adds (a : act) : bool :=
  match a with
  | AcDefs o => op_adds o | AcFacets o => op_adds o | AcExs o => op_adds o | AcAnns o => op_adds o | AcUntyped o => op_adds o | AcStrings o => op_adds o
  | AcExtra o => op_adds o
  | _ => false
  end.
(** The call [a] on what the chain [ns] leads to and [b] on what [ms] leads to, from the same object: the chains part; or they lead to one object, and the calls are about
    other getters or keys and do not both add keys; or one chain leads on from the object of the other, by a getter or key that the other call is not about. *)
Inductive separate : list name -> act -> list name -> act -> Prop :=
| sep_forked ns a ms b : forked ns ms -> separate ns a ms b
| sep_same ns a b : unlike (topic_of a) (topic_of b) -> adds a && adds b = false -> separate ns a ns b
| sep_below ns n ks a b : unlike (topic_of b) (name_topic n) -> separate (ns ++ n :: ks) a ns b
| sep_above ns a n ks b : unlike (topic_of a) (name_topic n) -> separate ns a (ns ++ n :: ks) b.

(** ** Calls that say all there is to say *)

(** Setters; SerializeOrdered; Put and Delete. *)
Definition op_final {K V} (o : op K V) : bool := match o with OPut _ _ | OPutIfNotNil _ (Some _) | ODelete _ | OSerializeOrdered _ => true | _ => false end.
Definition final (a : act) : bool :=
  match a with
  | AcDefs o => op_final o | AcFacets o => op_final o | AcExs o => op_final o | AcAnns o => op_final o | AcUntyped o => op_final o | AcStrings o => op_final o
  | AcExtra o => op_final o
  | _ => true
  end.
(** The object has the method, and the key of a map is equal to itself (a float that is not a number is not). *)
Definition own_key (a : act) : Prop := match topic_of a with OfKey k => gkey_eqb k k = true | _ => True end.
Definition has_method (a : act) (q : thing) : Prop :=
  match a, q with AcDef op, ThDef d => Fields.shaped d /\ has_setter (d_kind d) op = true | _, _ => fits a q = true end.
(** [b] was about what [a] is about, or was made on something that leads on from there. *)
Inductive covers (a : act) : list name -> act -> Prop :=
| covers_same b : topic_of b = topic_of a -> covers a [] b
| covers_below n ks b : name_topic n = topic_of a -> covers a (n :: ks) b.

(** ** In programs *)

(** Uses of other variables, or separate calls on one. *)
Inductive unrelated : use -> use -> Prop :=
| unrelated_vars u v : var_of u <> var_of v -> unrelated u v
| unrelated_calls x ns a ms b : separate ns a ms b -> unrelated (Do x ns a) (Do x ms b).
(** Unrelated neighbours may change places, any number of times. *)
Inductive rearranged : list use -> list use -> Prop :=
| re_same us : rearranged us us
| re_swap us u v vs : unrelated u v -> rearranged (us ++ u :: v :: vs) (us ++ v :: u :: vs)
| re_more us vs ws : rearranged us vs -> rearranged vs ws -> rearranged us ws.
(** [ws] consists of the uses of [us] and those of [vs], both in their own order. *)
Inductive interleaved : list use -> list use -> list use -> Prop :=
| inter_none : interleaved [] [] []
| inter_left u us vs ws : interleaved us vs ws -> interleaved (u :: us) vs (u :: ws)
| inter_right v us vs ws : interleaved us vs ws -> interleaved us (v :: vs) (v :: ws).
