(** What each setter and unsetter says, and what a getter must answer after a sequence of them.  Independent of how setters are modelled. *)
From Coq Require Import SpecFloat.
From Verif Require Import Base Num OMap OMapSpec Keys Yaml Values Assign Formats Meta Out Xml Example DataType Doc Api Library Fields ApiFields Setters.

(** [says op = Some v]: op is a setter of the field in question, and v is what the getter must answer after it.
    After [ops], the getter answers what the last such setter said, or what it answered before. *)
Definition last_setter {Op V} (says : Op -> option V) (ops : list Op) (before now : V) : Prop :=
  (exists pre op post, ops = pre ++ op :: post /\ says op = Some now /\ Forall (fun q => says q = None) post) \/
  (Forall (fun q => says q = None) ops /\ now = before).


(** ** Documentation entries *)
Definition says_doc_title (op : doc_op) : option string := match op with DSetTitle s => Some s | _ => None end.
Definition says_doc_content (op : doc_op) : option string := match op with DSetContent s => Some s | _ => None end.

(** ** XML settings *)
Definition says_attribute (op : xml_op) : option (option bool) :=
  match op with XSetIsAttribute b => Some (Some b) | XUnsetIsAttribute => Some None | _ => None end.
Definition says_wrapped (op : xml_op) : option (option bool) :=
  match op with XSetIsWrapped b => Some (Some b) | XUnsetIsWrapped => Some None | _ => None end.
Definition says_name (op : xml_op) : option (option string) :=
  match op with XSetName s => Some (Some s) | XUnsetName => Some None | _ => None end.
Definition says_namespace (op : xml_op) : option (option string) :=
  match op with XSetNamespace s => Some (Some s) | XUnsetNamespace => Some None | _ => None end.
Definition says_prefix (op : xml_op) : option (option string) :=
  match op with XSetPrefix s => Some (Some s) | XUnsetPrefix => Some None | _ => None end.

(** ** Examples *)
Definition says_ex_display (op : ex_op) : option (option string) :=
  match op with ESetDisplayName s => Some (Some s) | EUnsetDisplayName => Some None | _ => None end.
Definition says_ex_description (op : ex_op) : option (option string) :=
  match op with ESetDescription s => Some (Some s) | EUnsetDescription => Some None | _ => None end.
Definition says_ex_annotations (op : ex_op) : option (amap string untyped) :=
  match op with ESetAnnotations (Some m) => Some m | ESetAnnotations None | EUnsetAnnotations => Some anew | _ => None end.
Definition says_ex_value (op : ex_op) : option (option gval) :=
  match op with ESetValue v => Some v | EUnsetValue => Some None | _ => None end.
Definition says_ex_strict (op : ex_op) : option bool := match op with ESetStrict b => Some b | _ => None end.

(** ** API documents and libraries: the field a setter is for, and what it says *)
Definition says_api (f : afield) (op : api_op) : option (aty f) :=
  match f return option (aty f) with
  | ATitle => match op with ASetTitle s => Some s | _ => None end
  | AVersion => match op with ASetVersion s => Some (Some s) | AUnsetVersion => Some None | _ => None end
  | ABaseURI => match op with ASetBaseURI s => Some (Some s) | AUnsetBaseURI => Some None | _ => None end
  | ADescription => match op with ASetDescription s => Some (Some s) | AUnsetDescription => Some None | _ => None end
  | AProtocols => match op with ASetProtocols l => Some l | AUnsetProtocols => Some None | _ => None end
  | AMediaType => match op with ASetMediaTypes l => Some l | AUnsetMediaTypes => Some None | _ => None end
  | ADocumentation => match op with ASetDocumentation l => Some l | AUnsetDocumentation => Some None | _ => None end
  | ASecuredBy => match op with ASetSecuredBy l => Some l | AUnsetSecuredBy => Some None | _ => None end
  | AUses => match op with ASetUses (Some m) => Some m | ASetUses None | AUnsetUses => Some anew | _ => None end
  | ASecuritySchemes => match op with ASetSecuritySchemes (Some m) => Some m | ASetSecuritySchemes None | AUnsetSecuritySchemes => Some anew | _ => None end
  | ATraits => match op with ASetTraits (Some m) => Some m | ASetTraits None | AUnsetTraits => Some anew | _ => None end
  | AAnnotationTypes => match op with ASetAnnotationTypes (Some m) => Some m | ASetAnnotationTypes None | AUnsetAnnotationTypes => Some anew | _ => None end
  | AResourceTypes => match op with ASetResourceTypes (Some m) => Some m | ASetResourceTypes None | AUnsetResourceTypes => Some anew | _ => None end
  | AAnnotations => match op with ASetAnnotations (Some m) => Some m | ASetAnnotations None | AUnsetAnnotations => Some anew | _ => None end
  | ATypes =>
    match op with
    | ASetTypes (Some m) | ASetSchemas (Some m) => Some m
    | ASetTypes None | ASetSchemas None | AUnsetTypes | AUnsetSchemas => Some anew
    | _ => None
    end
  | ABaseURIParameters | AExtra | AResources => None
  end.

Definition says_lib (f : lfield) (op : lib_op) : option (lty f) :=
  match f return option (lty f) with
  | LUsage => match op with LSetUsage s => Some (Some s) | LUnsetUsage => Some None | _ => None end
  | LUses => match op with LSetUses (Some m) => Some m | LSetUses None | LUnsetUses => Some anew | _ => None end
  | LTraits => match op with LSetTraits (Some m) => Some m | LSetTraits None | LUnsetTraits => Some anew | _ => None end
  | LResourceTypes => match op with LSetResourceTypes (Some m) => Some m | LSetResourceTypes None | LUnsetResourceTypes => Some anew | _ => None end
  | LAnnotations => match op with LSetAnnotations (Some m) => Some m | LSetAnnotations None | LUnsetAnnotations => Some anew | _ => None end
  | LTypes =>
    match op with
    | LSetTypes (Some m) | LSetSchemas (Some m) => Some m
    | LSetTypes None | LSetSchemas None | LUnsetTypes | LUnsetSchemas => Some anew
    | _ => None
    end
  | LSecuritySchemes | LAnnotationTypes | LExtra => None
  end.

(** ** Types *)

(** The kinds that have the method (Go would not compile the call on another kind). *)
Definition has_setter (k : dkind) (op : type_op) : bool :=
  match op with
  | TSetUniqueItems _ | TSetMinItems _ | TSetMaxItems _ | TSetItems _ | TUnsetItems => match k with TyArray => true | _ => false end
  | TSetFormat _ | TUnsetFormat => match k with TyDatetime | TyInteger | TyNumber => true | _ => false end
  | TSetFileTypes _ | TUnsetFileTypes => match k with TyFile => true | _ => false end
  | TSetMinLength _ | TSetMaxLength _ => match k with TyFile | TyString => true | _ => false end
  | TUnsetMaxLength | TSetPattern _ | TUnsetPattern => match k with TyString => true | _ => false end
  | TSetMinimumInt _ | TSetMaximumInt _ => match k with TyInteger => true | _ => false end
  | TSetMinimumFloat _ | TSetMaximumFloat _ => match k with TyNumber => true | _ => false end
  | TUnsetMinimum | TUnsetMaximum | TSetMultipleOf _ | TUnsetMultipleOf => match k with TyInteger | TyNumber => true | _ => false end
  | TSetProperties _ | TUnsetProperties | TSetMinProperties _ | TUnsetMinProperties | TSetMaxProperties _ | TUnsetMaxProperties
  | TSetAdditionalProperties _ | TSetDiscriminator _ | TUnsetDiscriminator | TSetDiscriminatorValue _ | TUnsetDiscriminatorValue =>
    match k with TyObject => true | _ => false end
  | _ => match k with TyNil | TyInclude => false | _ => true end
  end.

Definition map_said {K V} (m : option (amap K V)) : amap K V := match m with Some m => m | None => anew end.

(** The one field a setter is for, and what its getter must answer afterwards. *)
Definition sets (k : dkind) (op : type_op) : field * fval :=
  match op with
  | TSetType s => (FType, VStr s)
  | TSetDefault v => (FDefault, VOptVal v) | TUnsetDefault => (FDefault, VOptVal None)
  | TSetExample e => (FExample, VEx e) | TUnsetExample => (FExample, VEx None)
  | TSetExamples m => (FExamples, VExs (map_said m)) | TUnsetExamples => (FExamples, VExs anew)
  | TSetDisplayName s => (FDisplay, VOptStr (Some s)) | TUnsetDisplayName => (FDisplay, VOptStr None)
  | TSetDescription s => (FDescr, VOptStr (Some s)) | TUnsetDescription => (FDescr, VOptStr None)
  | TSetAnnotations m => (FAnns, VAnns (map_said m)) | TUnsetAnnotations => (FAnns, VAnns anew)
  | TSetFacetDefinitions m => (FFacets, VFacets (map_said m)) | TUnsetFacetDefinitions => (FFacets, VFacets anew)
  | TSetXML o => (FXml, VXml o) | TUnsetXML => (FXml, VXml None)
  | TSetExtraFacets m => (FExtra, VExtra (map_said m)) | TUnsetExtraFacets => (FExtra, VExtra anew)
  | TSetRequired b => (FRequired, VBool b)
  | TSetEnum l => (FEnum, VVals l) | TUnsetEnum => (FEnum, VVals None)
  | TSetUniqueItems b => (FUnique, VBool b)
  | TSetMinItems z => (FMinItems, VInt z) | TSetMaxItems z => (FMaxItems, VInt z)
  | TSetItems t => (FItems, VOptType t) | TUnsetItems => (FItems, VOptType None)
  | TSetFormat o => (FFormat, VOptStr o) | TUnsetFormat => (FFormat, VOptStr None)
  | TSetFileTypes l => (FFileTypes, VStrs l) | TUnsetFileTypes => (FFileTypes, VStrs None)
  | TSetMinLength z => (FMinLength, VInt z)
  | TSetMaxLength z => (FMaxLength, match k with TyString => VOptInt (Some z) | _ => VInt z end)
  | TUnsetMaxLength => (FMaxLength, VOptInt None)
  | TSetMinimumInt z => (FMinimum, VOptInt (Some z)) | TSetMinimumFloat x => (FMinimum, VOptFloat (Some x))
  | TUnsetMinimum => (FMinimum, match k with TyInteger => VOptInt None | _ => VOptFloat None end)
  | TSetMaximumInt z => (FMaximum, VOptInt (Some z)) | TSetMaximumFloat x => (FMaximum, VOptFloat (Some x))
  | TUnsetMaximum => (FMaximum, match k with TyInteger => VOptInt None | _ => VOptFloat None end)
  | TSetMultipleOf x => (FMultipleOf, VOptFloat (Some x)) | TUnsetMultipleOf => (FMultipleOf, VOptFloat None)
  | TSetProperties m => (FProps, VTypes (map_said m)) | TUnsetProperties => (FProps, VTypes anew)
  | TSetMinProperties z => (FMinProps, VOptInt (Some z)) | TUnsetMinProperties => (FMinProps, VOptInt None)
  | TSetMaxProperties z => (FMaxProps, VOptInt (Some z)) | TUnsetMaxProperties => (FMaxProps, VOptInt None)
  | TSetAdditionalProperties b => (FAddl, VBool b)
  | TSetDiscriminator s => (FDiscr, VOptStr (Some s)) | TUnsetDiscriminator => (FDiscr, VOptStr None)
  | TSetDiscriminatorValue v => (FDiscrVal, VOptVal (Some v)) | TUnsetDiscriminatorValue => (FDiscrVal, VOptVal None)
  | TSetPattern s => (FPattern, VOptStr (Some s)) | TUnsetPattern => (FPattern, VOptStr None)
  end.

(** [Some (Some v)]: said; the outer option of [last_setter], the inner that of [getf] (the type has the getter). *)
Definition says_type (k : dkind) (f : field) (op : type_op) : option (option fval) :=
  if field_eqb (fst (sets k op)) f then Some (Some (snd (sets k op))) else None.
