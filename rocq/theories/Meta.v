(** v0/pkg/raml/rmeta: keys, type kinds, defaults, headers; v0/pkg/raml/rmod. *)
From Verif Require Import Base.

(** rmeta/keys.go:3-57.  The keys are notations for the literals. *)
Notation KeyAddtlProps := "additionalProperties".
Notation KeyAnnotationTypes := "annotationTypes".
Notation KeyAttribute := "attribute".
Notation KeyBaseURI := "baseUri".
Notation KeyBaseURIParams := "baseUriParameters".
Notation KeyContent := "content".
Notation KeyDefault := "default".
Notation KeyDescription := "description".
Notation KeyDiscriminator := "discriminator".
Notation KeyDiscriminatorVal := "discriminatorValue".
Notation KeyDisplayName := "displayName".
Notation KeyDocumentation := "documentation".
Notation KeyEnum := "enum".
Notation KeyExample := "example".
Notation KeyExamples := "examples".
Notation KeyFacets := "facets".
Notation KeyFileTypes := "fileTypes".
Notation KeyFormat := "format".
Notation KeyItems := "items".
Notation KeyMaximum := "maximum".
Notation KeyMaxItems := "maxItems".
Notation KeyMaxLength := "maxLength".
Notation KeyMaxProperties := "maxProperties".
Notation KeyMediaType := "mediaType".
Notation KeyMinimum := "minimum".
Notation KeyMinItems := "minItems".
Notation KeyMinLength := "minLength".
Notation KeyMinProperties := "minProperties".
Notation KeyMultipleOf := "multipleOf".
Notation KeyName := "name".
Notation KeyNamespace := "namespace".
Notation KeyPattern := "pattern".
Notation KeyPrefix := "prefix".
Notation KeyProperties := "properties".
Notation KeyProtocols := "protocols".
Notation KeyRequired := "required".
Notation KeyResourceTypes := "resourceTypes".
Notation KeySchema := "schema".
Notation KeySchemas := "schemas".
Notation KeySecuredBy := "securedBy".
Notation KeySecuritySchemes := "securitySchemes".
Notation KeyStrict := "strict".
Notation KeyTitle := "title".
Notation KeyTraits := "traits".
Notation KeyType := "type".
Notation KeyTypes := "types".
Notation KeyUniqueItems := "uniqueItems".
Notation KeyUsage := "usage".
Notation KeyUses := "uses".
Notation KeyValue := "value".
Notation KeyVersion := "version".
Notation KeyWrapped := "wrapped".
Notation KeyXML := "xml".

(** rmeta/type-names.go:5-25.  TypeMulti is declared there but used nowhere and left out. *)
Inductive dkind : Type :=
| TyAny | TyArray | TyBool | TyDateOnly | TyDatetime | TyDatetimeOnly | TyFile | TyInteger | TyNil
| TyNumber | TyObject | TyString | TyTimeOnly
| TyUnion | TyCustom | TyInclude.

Definition kind_name (k : dkind) : string :=
  match k with
  | TyAny => "any" | TyArray => "array" | TyBool => "boolean" | TyDateOnly => "date-only"
  | TyDatetime => "datetime" | TyDatetimeOnly => "datetime-only" | TyFile => "file"
  | TyInteger => "integer" | TyNil => "nil" | TyNumber => "number" | TyObject => "object"
  | TyString => "string" | TyTimeOnly => "time-only"
  | TyUnion => "union" | TyCustom => "custom" | TyInclude => "include"
  end.

(** rmeta/defaults.go:3-13 *)
Definition FileDefaultMinLength : Z := 0.
Definition FileDefaultMaxLength : Z := 2147483647.
Definition ArrayDefaultMinItems : Z := 0.
Definition ArrayDefaultMaxItems : Z := 2147483647.
Definition ArrayDefaultUniqueItems : bool := false.
Definition StringDefaultMinLength : Z := 0.
Definition ExampleDefaultStrict : bool := true.

(** rmeta/headers.go:5-14 *)
Definition newline : string := String "010" EmptyString.
Definition header_base : string := "#%RAML 1.0".
Definition header_foot : string := newline ++ "---" ++ newline.
Definition HeaderRoot : string := header_base ++ header_foot.
Definition HeaderDataType : string := header_base ++ " DataType" ++ header_foot.
Definition HeaderExtension : string := header_base ++ " Extension" ++ header_foot.
Definition HeaderLibrary : string := header_base ++ " Library" ++ header_foot.
Definition HeaderOverlay : string := header_base ++ " Overlay" ++ header_foot.
Definition HeaderTrait : string := header_base ++ " Trait" ++ header_foot.
