(** The setters of types, examples, XML settings, documentation entries, API documents and libraries.
    A nil map, list or object is [None].  A setter returns its receiver, so a chain of calls is a list of operations on one object. *)
From Coq Require Import SpecFloat.
From Verif Require Import Base Num OMap OMapSpec Keys Yaml Values Assign Formats Meta Out Xml Example DataType Marshal Doc Api Library.

(** raml.New...Map(0): the map every Unset puts in place of a map. *)
Definition blank {K V} : amap K V := anew.

(** if m == nil { return o.UnsetX() }; o.x = m *)
Definition or_blank {K V} (m : option (amap K V)) : amap K V := match m with Some m => m | None => blank end.

(** ** Documentation.go:24-36, type-xml.go:31-95 *)

Inductive doc_op : Type := DSetTitle (s : string) | DSetContent (s : string).
Definition doc_apply (op : doc_op) (d : doc) : doc :=
  match op with
  | DSetTitle s => mkDoc s (doc_content d) (doc_extra d)
  | DSetContent s => mkDoc (doc_title d) s (doc_extra d)
  end.

Inductive xml_op : Type :=
| XSetIsAttribute (b : bool) | XUnsetIsAttribute | XSetIsWrapped (b : bool) | XUnsetIsWrapped | XSetName (s : string) | XUnsetName
| XSetNamespace (s : string) | XUnsetNamespace | XSetPrefix (s : string) | XUnsetPrefix.
Definition xml_apply (op : xml_op) (x : xml) : xml :=
  match op with
  | XSetIsAttribute b => mkXml (Some b) (xml_wrap x) (xml_name x) (xml_ns x) (xml_pref x) (xml_extra x)
  | XUnsetIsAttribute => mkXml None (xml_wrap x) (xml_name x) (xml_ns x) (xml_pref x) (xml_extra x)
  | XSetIsWrapped b => mkXml (xml_attr x) (Some b) (xml_name x) (xml_ns x) (xml_pref x) (xml_extra x)
  | XUnsetIsWrapped => mkXml (xml_attr x) None (xml_name x) (xml_ns x) (xml_pref x) (xml_extra x)
  | XSetName s => mkXml (xml_attr x) (xml_wrap x) (Some s) (xml_ns x) (xml_pref x) (xml_extra x)
  | XUnsetName => mkXml (xml_attr x) (xml_wrap x) None (xml_ns x) (xml_pref x) (xml_extra x)
  | XSetNamespace s => mkXml (xml_attr x) (xml_wrap x) (xml_name x) (Some s) (xml_pref x) (xml_extra x)
  | XUnsetNamespace => mkXml (xml_attr x) (xml_wrap x) (xml_name x) None (xml_pref x) (xml_extra x)
  | XSetPrefix s => mkXml (xml_attr x) (xml_wrap x) (xml_name x) (xml_ns x) (Some s) (xml_extra x)
  | XUnsetPrefix => mkXml (xml_attr x) (xml_wrap x) (xml_name x) (xml_ns x) None (xml_extra x)
  end.

(** ** x-gen-ex-string.go:35-105, and the same lines of the other 13 (SetValue of an ArrayExample takes a slice, which may be nil) *)

Inductive ex_op : Type :=
| ESetDisplayName (s : string) | EUnsetDisplayName | ESetDescription (s : string) | EUnsetDescription
| ESetAnnotations (m : option (amap string untyped)) | EUnsetAnnotations | ESetValue (v : option gval) | EUnsetValue | ESetStrict (b : bool).
Definition ex_apply (op : ex_op) (e : ex) : ex :=
  match op with
  | ESetDisplayName s => mkEx (Some s) (ex_descr e) (ex_anns e) (ex_value e) (ex_strict e) (ex_extra e)
  | EUnsetDisplayName => mkEx None (ex_descr e) (ex_anns e) (ex_value e) (ex_strict e) (ex_extra e)
  | ESetDescription s => mkEx (ex_display e) (Some s) (ex_anns e) (ex_value e) (ex_strict e) (ex_extra e)
  | EUnsetDescription => mkEx (ex_display e) None (ex_anns e) (ex_value e) (ex_strict e) (ex_extra e)
  | ESetAnnotations m => mkEx (ex_display e) (ex_descr e) (or_blank m) (ex_value e) (ex_strict e) (ex_extra e)
  | EUnsetAnnotations => mkEx (ex_display e) (ex_descr e) blank (ex_value e) (ex_strict e) (ex_extra e)
  | ESetValue v => mkEx (ex_display e) (ex_descr e) (ex_anns e) v (ex_strict e) (ex_extra e)
  | EUnsetValue => mkEx (ex_display e) (ex_descr e) (ex_anns e) None (ex_strict e) (ex_extra e)
  | ESetStrict b => mkEx (ex_display e) (ex_descr e) (ex_anns e) (ex_value e) b (ex_extra e)
  end.

(** ** APISpec.go:54-295 *)

Inductive api_op : Type :=
| ASetTitle (s : string)
| ASetDescription (s : string) | AUnsetDescription
| ASetVersion (s : string) | AUnsetVersion
| ASetBaseURI (s : string) | AUnsetBaseURI
| ASetProtocols (l : option (list string)) | AUnsetProtocols
| ASetMediaTypes (l : option (list string)) | AUnsetMediaTypes
| ASetDocumentation (l : option (list doc)) | AUnsetDocumentation
| ASetTypes (m : option (amap string dtype)) | AUnsetTypes
| ASetSchemas (m : option (amap string dtype)) | AUnsetSchemas
| ASetTraits (m : option untyped) | AUnsetTraits
| ASetResourceTypes (m : option untyped) | AUnsetResourceTypes
| ASetAnnotationTypes (m : option untyped) | AUnsetAnnotationTypes
| ASetAnnotations (m : option (amap string untyped)) | AUnsetAnnotations
| ASetSecuritySchemes (m : option untyped) | AUnsetSecuritySchemes
| ASetSecuredBy (l : option (list string)) | AUnsetSecuredBy
| ASetUses (m : option (amap string string)) | AUnsetUses.
Definition api_apply (op : api_op) (a : api) : api :=
  match op with
  | ASetTitle s => a_set_title s a
  | ASetDescription s => a_set_description (Some s) a
  | AUnsetDescription => a_set_description None a
  | ASetVersion s => a_set_version (Some s) a
  | AUnsetVersion => a_set_version None a
  | ASetBaseURI s => a_set_baseURI (Some s) a
  | AUnsetBaseURI => a_set_baseURI None a
  | ASetProtocols l => a_set_protocols l a
  | AUnsetProtocols => a_set_protocols None a
  | ASetMediaTypes l => a_set_mediaType l a
  | AUnsetMediaTypes => a_set_mediaType None a
  | ASetDocumentation l => a_set_documentation l a
  | AUnsetDocumentation => a_set_documentation None a
  | ASetTypes m => a_set_types (or_blank m) a
  | AUnsetTypes => a_set_types blank a
  | ASetSchemas m => a_set_types (or_blank m) a
  | AUnsetSchemas => a_set_types blank a
  | ASetTraits m => a_set_traits (or_blank m) a
  | AUnsetTraits => a_set_traits blank a
  | ASetResourceTypes m => a_set_resourceTypes (or_blank m) a
  | AUnsetResourceTypes => a_set_resourceTypes blank a
  | ASetAnnotationTypes m => a_set_annotationTypes (or_blank m) a
  | AUnsetAnnotationTypes => a_set_annotationTypes blank a
  | ASetAnnotations m => a_set_annotations (or_blank m) a
  | AUnsetAnnotations => a_set_annotations blank a
  | ASetSecuritySchemes m => a_set_securitySchemes (or_blank m) a
  | AUnsetSecuritySchemes => a_set_securitySchemes blank a
  | ASetSecuredBy l => a_set_securedBy l a
  | AUnsetSecuredBy => a_set_securedBy None a
  | ASetUses m => a_set_uses (or_blank m) a
  | AUnsetUses => a_set_uses blank a
  end.

(** ** Library.go:42-159 *)

Inductive lib_op : Type :=
| LSetAnnotations (m : option (amap string untyped)) | LUnsetAnnotations
| LSetUses (m : option (amap string string)) | LUnsetUses
| LSetResourceTypes (m : option untyped) | LUnsetResourceTypes
| LSetTraits (m : option untyped) | LUnsetTraits
| LSetTypes (m : option (amap string dtype)) | LUnsetTypes
| LSetSchemas (m : option (amap string dtype)) | LUnsetSchemas
| LSetUsage (s : string) | LUnsetUsage.
Definition lib_apply (op : lib_op) (l : library) : library :=
  match op with
  | LSetAnnotations m => l_set_annotations (or_blank m) l
  | LUnsetAnnotations => l_set_annotations blank l
  | LSetUses m => l_set_uses (or_blank m) l
  | LUnsetUses => l_set_uses blank l
  | LSetResourceTypes m => l_set_resourceTypes (or_blank m) l
  | LUnsetResourceTypes => l_set_resourceTypes blank l
  | LSetTraits m => l_set_traits (or_blank m) l
  | LUnsetTraits => l_set_traits blank l
  | LSetTypes m => l_set_types (or_blank m) l
  | LUnsetTypes => l_set_types blank l
  | LSetSchemas m => l_set_types (or_blank m) l
  | LUnsetSchemas => l_set_types blank l
  | LSetUsage s => l_set_usage (Some s) l
  | LUnsetUsage => l_set_usage None l
  end.

(** ** The 14 x-gen-type-*.go (x-gen-type-object.go:51-274 and so on).  Nil and include types have no setters. *)

Inductive type_op : Type :=
| TSetType (s : string)
| TSetDefault (v : option gval) | TUnsetDefault
| TSetExample (e : option ex) | TUnsetExample
| TSetExamples (m : option (amap string ex)) | TUnsetExamples
| TSetDisplayName (s : string) | TUnsetDisplayName
| TSetDescription (s : string) | TUnsetDescription
| TSetAnnotations (m : option (amap string untyped)) | TUnsetAnnotations
| TSetFacetDefinitions (m : option (amap string (amap string dtype))) | TUnsetFacetDefinitions
| TSetXML (x : option xml) | TUnsetXML
| TSetExtraFacets (m : option (amap gkey gval)) | TUnsetExtraFacets
| TSetRequired (b : bool)
| TSetEnum (l : option (list gval)) | TUnsetEnum
(* ArrayType *)
| TSetUniqueItems (b : bool) | TSetMinItems (z : Z) | TSetMaxItems (z : Z) | TSetItems (t : option dtype) | TUnsetItems
(* DatetimeType, IntegerType, NumberType *)
| TSetFormat (o : option string) | TUnsetFormat
(* FileType *)
| TSetFileTypes (l : option (list string)) | TUnsetFileTypes
(* FileType, StringType *)
| TSetMinLength (z : Z) | TSetMaxLength (z : Z) | TUnsetMaxLength
(* IntegerType; NumberType *)
| TSetMinimumInt (z : Z) | TSetMaximumInt (z : Z) | TSetMinimumFloat (x : spec_float) | TSetMaximumFloat (x : spec_float) | TUnsetMinimum | TUnsetMaximum
| TSetMultipleOf (x : spec_float) | TUnsetMultipleOf
(* ObjectType *)
| TSetProperties (m : option (amap string dtype)) | TUnsetProperties
| TSetMinProperties (z : Z) | TUnsetMinProperties | TSetMaxProperties (z : Z) | TUnsetMaxProperties
| TSetAdditionalProperties (b : bool) | TSetDiscriminator (s : string) | TUnsetDiscriminator | TSetDiscriminatorValue (v : gval) | TUnsetDiscriminatorValue
(* StringType *)
| TSetPattern (s : string) | TUnsetPattern.

(** The setters of the parts all 14 have. *)
Definition base_apply (op : type_op) (b : base) : base :=
  match op with
  | TSetType s => mkBase s (b_kind b) (b_extra b)
  | TSetExtraFacets m => mkBase (b_schema b) (b_kind b) (or_blank m)
  | TUnsetExtraFacets => mkBase (b_schema b) (b_kind b) blank
  | _ => b
  end.
Definition ext_apply (op : type_op) (x : ext) : ext :=
  match op with
  | TSetDisplayName s => mkExt (Some s) (x_descr x) (x_anns x) (x_xml x) (x_required x)
  | TUnsetDisplayName => mkExt None (x_descr x) (x_anns x) (x_xml x) (x_required x)
  | TSetDescription s => mkExt (x_display x) (Some s) (x_anns x) (x_xml x) (x_required x)
  | TUnsetDescription => mkExt (x_display x) None (x_anns x) (x_xml x) (x_required x)
  | TSetAnnotations m => mkExt (x_display x) (x_descr x) (or_blank m) (x_xml x) (x_required x)
  | TUnsetAnnotations => mkExt (x_display x) (x_descr x) blank (x_xml x) (x_required x)
  | TSetXML o => mkExt (x_display x) (x_descr x) (x_anns x) o (x_required x)
  | TUnsetXML => mkExt (x_display x) (x_descr x) (x_anns x) None (x_required x)
  | TSetRequired r => mkExt (x_display x) (x_descr x) (x_anns x) (x_xml x) r
  | _ => x
  end.
Definition facets_apply (op : type_op) (fs : amap string (amap string dtype)) : amap string (amap string dtype) :=
  match op with
  | TSetFacetDefinitions m => or_blank m
  | TUnsetFacetDefinitions => blank
  | _ => fs
  end.
Definition common_apply (op : type_op) (c : common) : common :=
  match op with
  | TSetDefault v => mkCom v (c_example c) (c_examples c) (c_enum c)
  | TUnsetDefault => mkCom None (c_example c) (c_examples c) (c_enum c)
  | TSetExample e => mkCom (c_def c) e (c_examples c) (c_enum c)
  | TUnsetExample => mkCom (c_def c) None (c_examples c) (c_enum c)
  | TSetExamples m => mkCom (c_def c) (c_example c) (or_blank m) (c_enum c)
  | TUnsetExamples => mkCom (c_def c) (c_example c) blank (c_enum c)
  | TSetEnum l => mkCom (c_def c) (c_example c) (c_examples c) l
  | TUnsetEnum => mkCom (c_def c) (c_example c) (c_examples c) None
  | _ => c
  end.

(** The setters of one kind, for what is not a type. *)
Definition own_apply {T} (op : type_op) (s : spec T) : spec T :=
  match s with
  | SNone => SNone
  | SArray u mn mx it =>
    match op with
    | TSetUniqueItems b => SArray b mn mx it
    | TSetMinItems z => SArray u z mx it
    | TSetMaxItems z => SArray u mn z it
    | TUnsetItems => SArray u mn mx None
    | _ => s
    end
  | SDatetime fm =>
    match op with TSetFormat o => SDatetime o | TUnsetFormat => SDatetime None | _ => s end
  | SFile ft mn mx =>
    match op with
    | TSetFileTypes l => SFile l mn mx
    | TUnsetFileTypes => SFile None mn mx
    | TSetMinLength z => SFile ft z mx
    | TSetMaxLength z => SFile ft mn z
    | _ => s
    end
  | SInteger fm mn mx mu =>
    match op with
    | TSetFormat o => SInteger o mn mx mu
    | TUnsetFormat => SInteger None mn mx mu
    | TSetMinimumInt z => SInteger fm (Some z) mx mu
    | TUnsetMinimum => SInteger fm None mx mu
    | TSetMaximumInt z => SInteger fm mn (Some z) mu
    | TUnsetMaximum => SInteger fm mn None mu
    | TSetMultipleOf x => SInteger fm mn mx (Some x)
    | TUnsetMultipleOf => SInteger fm mn mx None
    | _ => s
    end
  | SNumber fm mn mx mu =>
    match op with
    | TSetFormat o => SNumber o mn mx mu
    | TUnsetFormat => SNumber None mn mx mu
    | TSetMinimumFloat z => SNumber fm (Some z) mx mu
    | TUnsetMinimum => SNumber fm None mx mu
    | TSetMaximumFloat z => SNumber fm mn (Some z) mu
    | TUnsetMaximum => SNumber fm mn None mu
    | TSetMultipleOf x => SNumber fm mn mx (Some x)
    | TUnsetMultipleOf => SNumber fm mn mx None
    | _ => s
    end
  | SObject ps mn mx ad di dv =>
    match op with
    | TSetMinProperties z => SObject ps (Some z) mx ad di dv
    | TUnsetMinProperties => SObject ps None mx ad di dv
    | TSetMaxProperties z => SObject ps mn (Some z) ad di dv
    | TUnsetMaxProperties => SObject ps mn None ad di dv
    | TSetAdditionalProperties b => SObject ps mn mx b di dv
    | TSetDiscriminator s => SObject ps mn mx ad (Some s) dv
    | TUnsetDiscriminator => SObject ps mn mx ad None dv
    | TSetDiscriminatorValue v => SObject ps mn mx ad di (Some v)
    | TUnsetDiscriminatorValue => SObject ps mn mx ad di None
    | _ => s
    end
  | SString p mn mx =>
    match op with
    | TSetPattern s => SString (Some s) mn mx
    | TUnsetPattern => SString None mn mx
    | TSetMinLength z => SString p z mx
    | TSetMaxLength z => SString p mn (Some z)
    | TUnsetMaxLength => SString p mn None
    | _ => s
    end
  end.

(** x-gen-type-array.go SetItems, x-gen-type-object.go SetProperties, UnsetProperties, and all others *)
Definition spec_apply (op : type_op) (s : spec dtype) : spec dtype :=
  match s, op with
  | SArray u mn mx _, TSetItems t => SArray u mn mx t
  | SObject _ mn mx ad di dv, TSetProperties m => SObject (or_blank m) mn mx ad di dv
  | SObject _ mn mx ad di dv, TUnsetProperties => SObject blank mn mx ad di dv
  | _, _ => own_apply op s
  end.

Definition type_apply (op : type_op) (d : dtype) : dtype :=
  match d with
  | TBase b => d
  | TExt b x fs c s => TExt (base_apply op b) (ext_apply op x) (facets_apply op fs) (common_apply op c) (spec_apply op s)
  end.

(** A chain of calls. *)
Definition run {O Op} (apply : Op -> O -> O) (ops : list Op) (o : O) : O := fold_left (fun o op => apply op o) ops o.
