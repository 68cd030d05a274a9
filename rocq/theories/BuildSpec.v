(** Vocabulary of C78: what a program can build with the constructors that the library offers, without loading anything. *)
From Coq Require Import SpecFloat Relations.
From Verif Require Import Base Num OMap OMapSpec Keys Yaml Values Assign Formats Meta Out Xml Example DataType Marshal Doc Api Library TypeFacts Fields Setters SetterSpec Live.

(** The types that rbuild/new.go:18-47 makes.  It has no function for the other kinds, nor for examples, XML settings and documentation entries: their
    constructors are in internal/raml. *)
Definition rbuild_kinds : list dkind := [TyAny; TyArray; TyBool; TyInteger; TyNumber; TyString].

(** ** What can be built *)

(** A call of a map's method that changes it, with a value that can be built. *)
Inductive gives {K V} (ok : V -> Prop) : op K V -> Prop :=
| gives_put k v : ok v -> gives ok (OPut k v)
| gives_some k v : ok v -> gives ok (OPutIfNotNil k (Some v))
| gives_replace_or_put k v : ok v -> gives ok (OReplaceOrPut k v)
| gives_replace k v : ok v -> gives ok (OReplaceIfExists k v)
| gives_nil k : gives ok (OPutIfNotNil k None)
| gives_delete k : gives ok (ODelete k)
| gives_ordered b : gives ok (OSerializeOrdered b).

(** Maps: raml.New...Map(0), and then calls of their methods. *)
Inductive made {K V} (keq : K -> K -> bool) (ok : V -> Prop) : amap K V -> Prop :=
| made_new : made keq ok anew
| made_edit m o : made keq ok m -> gives ok o -> made keq ok (map_edit keq o m).

Definition anything {V} (v : V) : Prop := True.
Definition nothing {V} (v : V) : Prop := False.

(** Setters that take maps, types, examples or XML settings that are not nil. *)
Definition takes_object (op : type_op) : bool :=
  match op with
  | TSetItems (Some _) | TSetProperties (Some _) | TSetFacetDefinitions (Some _) | TSetAnnotations (Some _) | TSetExtraFacets (Some _)
  | TSetExample (Some _) | TSetExamples (Some _) | TSetXML (Some _) => true
  | _ => false
  end.
Inductive gets (P : dtype -> Prop) : type_op -> Prop :=
| gets_items t : P t -> gets P (TSetItems (Some t))
| gets_properties m : made String.eqb P m -> gets P (TSetProperties (Some m))
| gets_facets m : made String.eqb (made String.eqb P) m -> gets P (TSetFacetDefinitions (Some m))
| gets_annotations m : made String.eqb (made String.eqb anything) m -> gets P (TSetAnnotations (Some m))
| gets_extra m : made gkey_eqb anything m -> gets P (TSetExtraFacets (Some m))
| gets_examples m : made String.eqb nothing m -> gets P (TSetExamples (Some m))
| gets_other op : takes_object op = false -> gets P op.

(** A type: one of rbuild's constructors, and then setters.  (The map that a getter returns can be edited too; that gives nothing that setting a map does not.) *)
Inductive built_type : dtype -> Prop :=
| built_new k : In k rbuild_kinds -> built_type (new_type k)
| built_set d op : built_type d -> has_setter (d_kind d) op = true -> gets built_type op -> built_type (type_apply op d).

Definition built_types : amap string dtype -> Prop := made String.eqb built_type.
Definition built_untyped : untyped -> Prop := made String.eqb anything.

(** A document: NewAPISpec, setters, and edits of the maps that have no setter. *)
Definition api_gets (op : api_op) : Prop :=
  match op with
  | ASetDocumentation (Some l) => l = []
  | ASetTypes (Some m) | ASetSchemas (Some m) => built_types m
  | ASetTraits (Some m) | ASetResourceTypes (Some m) | ASetAnnotationTypes (Some m) | ASetSecuritySchemes (Some m) => built_untyped m
  | ASetAnnotations (Some m) => made String.eqb built_untyped m
  | ASetUses (Some m) => made String.eqb anything m
  | _ => True
  end.
Inductive built_api : api -> Prop :=
| built_new_api : built_api new_api
| built_set_api a op : built_api a -> api_gets op -> built_api (api_apply op a)
| built_parameters a o : built_api a -> gives anything o -> built_api (a_set_baseURIParameters (map_edit String.eqb o (a_baseURIParameters a)) a)
| built_resources a o : built_api a -> gives anything o -> built_api (a_set_resources (map_edit String.eqb o (a_resources a)) a)
| built_extra a o : built_api a -> gives anything o -> built_api (a_set_extra (map_edit gkey_eqb o (a_extra a)) a).

(** A library. *)
Definition lib_gets (op : lib_op) : Prop :=
  match op with
  | LSetTypes (Some m) | LSetSchemas (Some m) => built_types m
  | LSetTraits (Some m) | LSetResourceTypes (Some m) => built_untyped m
  | LSetAnnotations (Some m) => made String.eqb built_untyped m
  | LSetUses (Some m) => made String.eqb anything m
  | _ => True
  end.
Inductive built_lib : library -> Prop :=
| built_new_lib : built_lib new_library
| built_set_lib l op : built_lib l -> lib_gets op -> built_lib (lib_apply op l)
| built_schemes l o : built_lib l -> gives anything o -> built_lib (l_set_securitySchemes (map_edit String.eqb o (l_securitySchemes l)) l)
| built_annotation_types l o : built_lib l -> gives anything o -> built_lib (l_set_annotationTypes (map_edit String.eqb o (l_annotationTypes l)) l)
| built_lib_extra l o : built_lib l -> gives anything o -> built_lib (l_set_extra (map_edit gkey_eqb o (l_extra l)) l).

(** ** What a document must be made of *)

(** [t] is what a getter of [d] answers, or is in the map that it answers. *)
Inductive inside (t : dtype) : dtype -> Prop :=
| inside_items d : getf FItems d = Some (VOptType (Some t)) -> inside t d
| inside_properties d m k : getf FProps d = Some (VTypes m) -> In (k, t) (ents m) -> inside t d
| inside_facets d m k m' k' : getf FFacets d = Some (VFacets m) -> In (k, m') (ents m) -> In (k', t) (ents m') -> inside t d.
Definition anywhere_in : dtype -> dtype -> Prop := clos_refl_trans dtype inside.

(** Of a kind that rbuild makes, without examples and XML settings. *)
Definition plain_type (t : dtype) : Prop :=
  In (d_kind t) rbuild_kinds /\ getf FExample t = Some (VEx None) /\ (forall m, getf FExamples t = Some (VExs m) -> ents m = []) /\ getf FXml t = Some (VXml None).
