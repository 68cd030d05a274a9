(** The maps of documents, libraries, types and examples as Go holds them: by reference.  Elsewhere in the model a map is part of the object.  Here it is an
    address, so that one map may be reached through a getter, edited, and used in several objects.
    Simplified: what is inside a map (a type, an annotation, an example) is a value here; Heap.v has the types behind references. *)
From Coq Require Import SpecFloat.
From Verif Require Import Base Num OMap OMapSpec Keys Yaml Values Assign Formats Meta Out Xml Example DataType Marshal Doc Api Library Setters.

(** An object.  Its maps are not those in the value: see [objects] below. *)
Inductive obj : Type := OApi (a : api) | OLib (l : library) | ODoc (d : doc) | OEx (e : ex) | OType (t : dtype).

(** The getters that return a map: APISpec.go:101-303, Library.go:38-137, Documentation.go:38-40, x-gen-ex-string.go:63-105, DataType.go, type-datatype-ext.go,
    x-gen-type-object.go:84-86 and so on.  Types() and Schemas() return the same map. *)
Inductive slot : Type :=
| SUses | SSecuritySchemes | SBaseURIParameters | STraits | SAnnotationTypes | SResourceTypes | SResources | STypes | SAnnotations | SExtra | SExamples
| SFacetDefinitions | SProperties.

Definition all_slots : list slot :=
  [SUses; SSecuritySchemes; SBaseURIParameters; STraits; SAnnotationTypes; SResourceTypes; SResources; STypes; SAnnotations; SExtra; SExamples;
   SFacetDefinitions; SProperties].
Definition slot_index (s : slot) : nat :=
  match s with
  | SUses => 0 | SSecuritySchemes => 1 | SBaseURIParameters => 2 | STraits => 3 | SAnnotationTypes => 4 | SResourceTypes => 5 | SResources => 6
  | STypes => 7 | SAnnotations => 8 | SExtra => 9 | SExamples => 10 | SFacetDefinitions => 11 | SProperties => 12
  end.

(** A map of one of the Go types: UntypedMap, StringMap, DataTypeMap, AnnotationMap, AnyMap, the 14 example maps, FacetMap and PropertyMap. *)
Inductive cell : Type :=
| CUntyped (m : untyped) | CStrings (m : amap string string) | CTypes (m : amap string dtype) | CAnns (m : amap string untyped)
| CExtra (m : amap gkey gval) | CExamples (m : amap string ex) | CFacets (m : amap string (amap string dtype)) | CProps (m : amap string dtype).

(** The Go type of a getter. *)
Definition cell_fits (s : slot) (c : cell) : bool :=
  match s, c with
  | SUses, CStrings _ | STypes, CTypes _ | SAnnotations, CAnns _ | SExtra, CExtra _ | SExamples, CExamples _
  | SFacetDefinitions, CFacets _ | SProperties, CProps _ => true
  | SUses, _ | STypes, _ | SAnnotations, _ | SExtra, _ | SExamples, _ | SFacetDefinitions, _ | SProperties, _ => false
  | _, CUntyped _ => true
  | _, _ => false
  end.
(** raml.New...Map(0) *)
Definition blank_cell (s : slot) : cell :=
  match s with
  | SUses => CStrings blank | STypes => CTypes blank | SAnnotations => CAnns blank | SExtra => CExtra blank | SExamples => CExamples blank
  | SFacetDefinitions => CFacets blank | SProperties => CProps blank
  | _ => CUntyped blank
  end.

(** The map of an object value; [None]: it has no such getter. *)
Definition get_map (s : slot) (o : obj) : option cell :=
  match o, s with
  | OApi a, SUses => Some (CStrings (a_uses a))
  | OApi a, SSecuritySchemes => Some (CUntyped (a_securitySchemes a))
  | OApi a, SBaseURIParameters => Some (CUntyped (a_baseURIParameters a))
  | OApi a, STraits => Some (CUntyped (a_traits a))
  | OApi a, SAnnotationTypes => Some (CUntyped (a_annotationTypes a))
  | OApi a, SResourceTypes => Some (CUntyped (a_resourceTypes a))
  | OApi a, SResources => Some (CUntyped (a_resources a))
  | OApi a, STypes => Some (CTypes (a_types a))
  | OApi a, SAnnotations => Some (CAnns (a_annotations a))
  | OApi a, SExtra => Some (CExtra (a_extra a))
  | OLib l, SUses => Some (CStrings (l_uses l))
  | OLib l, SSecuritySchemes => Some (CUntyped (l_securitySchemes l))
  | OLib l, STraits => Some (CUntyped (l_traits l))
  | OLib l, SAnnotationTypes => Some (CUntyped (l_annotationTypes l))
  | OLib l, SResourceTypes => Some (CUntyped (l_resourceTypes l))
  | OLib l, STypes => Some (CTypes (l_types l))
  | OLib l, SAnnotations => Some (CAnns (l_annotations l))
  | OLib l, SExtra => Some (CExtra (l_extra l))
  | ODoc d, SExtra => Some (CExtra (doc_extra d))
  | OEx e, SAnnotations => Some (CAnns (ex_anns e))
  | OEx e, SExtra => Some (CExtra (ex_extra e))
  | OType (TBase b), SExtra => Some (CExtra (b_extra b))
  | OType (TExt b x fs c p), SFacetDefinitions => Some (CFacets fs)
  | OType (TExt b x fs c (SObject m _ _ _ _ _)), SProperties => Some (CProps m)
  | OType (TExt b x fs c p), SExtra => Some (CExtra (b_extra b))
  | OType (TExt b x fs c p), SAnnotations => Some (CAnns (x_anns x))
  | OType (TExt b x fs c p), SExamples => Some (CExamples (c_examples c))
  | _, _ => None
  end.

(** The object value with another map. *)
Definition set_map (s : slot) (c : cell) (o : obj) : obj :=
  match o, s, c with
  | OApi a, SUses, CStrings m => OApi (a_set_uses m a)
  | OApi a, SSecuritySchemes, CUntyped m => OApi (a_set_securitySchemes m a)
  | OApi a, SBaseURIParameters, CUntyped m => OApi (a_set_baseURIParameters m a)
  | OApi a, STraits, CUntyped m => OApi (a_set_traits m a)
  | OApi a, SAnnotationTypes, CUntyped m => OApi (a_set_annotationTypes m a)
  | OApi a, SResourceTypes, CUntyped m => OApi (a_set_resourceTypes m a)
  | OApi a, SResources, CUntyped m => OApi (a_set_resources m a)
  | OApi a, STypes, CTypes m => OApi (a_set_types m a)
  | OApi a, SAnnotations, CAnns m => OApi (a_set_annotations m a)
  | OApi a, SExtra, CExtra m => OApi (a_set_extra m a)
  | OLib l, SUses, CStrings m => OLib (l_set_uses m l)
  | OLib l, SSecuritySchemes, CUntyped m => OLib (l_set_securitySchemes m l)
  | OLib l, STraits, CUntyped m => OLib (l_set_traits m l)
  | OLib l, SAnnotationTypes, CUntyped m => OLib (l_set_annotationTypes m l)
  | OLib l, SResourceTypes, CUntyped m => OLib (l_set_resourceTypes m l)
  | OLib l, STypes, CTypes m => OLib (l_set_types m l)
  | OLib l, SAnnotations, CAnns m => OLib (l_set_annotations m l)
  | OLib l, SExtra, CExtra m => OLib (l_set_extra m l)
  | ODoc d, SExtra, CExtra m => ODoc (mkDoc (doc_title d) (doc_content d) m)
  | OEx e, SAnnotations, CAnns m => OEx (mkEx (ex_display e) (ex_descr e) m (ex_value e) (ex_strict e) (ex_extra e))
  | OEx e, SExtra, CExtra m => OEx (mkEx (ex_display e) (ex_descr e) (ex_anns e) (ex_value e) (ex_strict e) m)
  | OType (TBase b), SExtra, CExtra m => OType (TBase (mkBase (b_schema b) (b_kind b) m))
  | OType (TExt b x fs k p), SExtra, CExtra m => OType (TExt (mkBase (b_schema b) (b_kind b) m) x fs k p)
  | OType (TExt b x fs k p), SAnnotations, CAnns m => OType (TExt b (mkExt (x_display x) (x_descr x) m (x_xml x) (x_required x)) fs k p)
  | OType (TExt b x fs k p), SFacetDefinitions, CFacets m => OType (TExt b x m k p)
  | OType (TExt b x fs k (SObject _ mn mx ad di dv)), SProperties, CProps m => OType (TExt b x fs k (SObject m mn mx ad di dv))
  | OType (TExt b x fs k p), SExamples, CExamples m => OType (TExt b x fs (mkCom (c_def k) (c_example k) m (c_enum k)) p)
  | _, _, _ => o
  end.

(** The maps that have a setter.  APISpec.go has none for baseUriParameters, resources and extra facets; Library.go none for annotation types, security schemes
    and extra facets; Documentation.go and the examples none for extra facets; nil and include types have no setters. *)
Definition settable (s : slot) (o : obj) : bool :=
  match o, s with
  | OApi _, (SUses | SSecuritySchemes | STraits | SAnnotationTypes | SResourceTypes | STypes | SAnnotations) => true
  | OLib _, (SUses | STraits | SResourceTypes | STypes | SAnnotations) => true
  | OEx _, SAnnotations => true
  | OType (TExt _ _ _ _ _), (SExtra | SAnnotations | SExamples | SFacetDefinitions) => true
  | OType (TExt _ _ _ _ (SObject _ _ _ _ _ _)), SProperties => true
  | _, _ => false
  end.

(** ** Memory *)

(** The objects, each with the addresses of its maps (a.uses = m stores an address), and the maps. *)
Record memory : Type := mkMem { objects : list (obj * (slot -> nat)); maps : list cell }.

Definition no_memory : memory := mkMem [] [].

(** ** Calls *)

(** One method of a map (OMap.v; C01 shows that the code does what [sstep] says). *)
Definition map_edit {K V} (keq : K -> K -> bool) (o : op K V) (m : amap K V) : amap K V :=
  mkMap (match sstep keq (ents m) o with Some (l, _) => l | None => ents m end) (match o with OSerializeOrdered b => b | _ => oord m end).

Inductive edit : Type :=
| EUntyped (o : op string gval) | EStrings (o : op string string) | ETypes (o : op string dtype) | EAnns (o : op string untyped)
| EExtra (o : op gkey gval) | EExamples (o : op string ex) | EFacets (o : op string (amap string dtype)) | EProps (o : op string dtype).
Definition edit_cell (e : edit) (c : cell) : cell :=
  match e, c with
  | EUntyped o, CUntyped m => CUntyped (map_edit String.eqb o m)
  | EStrings o, CStrings m => CStrings (map_edit String.eqb o m)
  | ETypes o, CTypes m => CTypes (map_edit String.eqb o m)
  | EAnns o, CAnns m => CAnns (map_edit String.eqb o m)
  | EExtra o, CExtra m => CExtra (map_edit gkey_eqb o m)
  | EExamples o, CExamples m => CExamples (map_edit String.eqb o m)
  | EFacets o, CFacets m => CFacets (map_edit String.eqb o m)
  | EProps o, CProps m => CProps (map_edit String.eqb o m)
  | _, _ => c
  end.

(** The setters: those of Setters.v. *)
Inductive plain_op : Type := PApi (op : api_op) | PLib (op : lib_op) | PDoc (op : doc_op) | PEx (op : ex_op) | PType (op : type_op).
Definition plain_apply (p : plain_op) (o : obj) : obj :=
  match p, o with
  | PApi op, OApi a => OApi (api_apply op a)
  | PLib op, OLib l => OLib (lib_apply op l)
  | PDoc op, ODoc d => ODoc (doc_apply op d)
  | PEx op, OEx e => OEx (ex_apply op e)
  | PType op, OType t => OType (type_apply op t)
  | _, _ => o
  end.

(** The setters that take a map: which one, and what is given ([None]: nil, or an Unset method). *)
Definition map_op (p : plain_op) : option (slot * option cell) :=
  match p with
  | PApi (ASetTypes m | ASetSchemas m) => Some (STypes, option_map CTypes m) | PApi (AUnsetTypes | AUnsetSchemas) => Some (STypes, None)
  | PApi (ASetTraits m) => Some (STraits, option_map CUntyped m) | PApi AUnsetTraits => Some (STraits, None)
  | PApi (ASetResourceTypes m) => Some (SResourceTypes, option_map CUntyped m) | PApi AUnsetResourceTypes => Some (SResourceTypes, None)
  | PApi (ASetAnnotationTypes m) => Some (SAnnotationTypes, option_map CUntyped m) | PApi AUnsetAnnotationTypes => Some (SAnnotationTypes, None)
  | PApi (ASetAnnotations m) => Some (SAnnotations, option_map CAnns m) | PApi AUnsetAnnotations => Some (SAnnotations, None)
  | PApi (ASetSecuritySchemes m) => Some (SSecuritySchemes, option_map CUntyped m) | PApi AUnsetSecuritySchemes => Some (SSecuritySchemes, None)
  | PApi (ASetUses m) => Some (SUses, option_map CStrings m) | PApi AUnsetUses => Some (SUses, None)
  | PLib (LSetAnnotations m) => Some (SAnnotations, option_map CAnns m) | PLib LUnsetAnnotations => Some (SAnnotations, None)
  | PLib (LSetUses m) => Some (SUses, option_map CStrings m) | PLib LUnsetUses => Some (SUses, None)
  | PLib (LSetResourceTypes m) => Some (SResourceTypes, option_map CUntyped m) | PLib LUnsetResourceTypes => Some (SResourceTypes, None)
  | PLib (LSetTraits m) => Some (STraits, option_map CUntyped m) | PLib LUnsetTraits => Some (STraits, None)
  | PLib (LSetTypes m | LSetSchemas m) => Some (STypes, option_map CTypes m) | PLib (LUnsetTypes | LUnsetSchemas) => Some (STypes, None)
  | PEx (ESetAnnotations m) => Some (SAnnotations, option_map CAnns m) | PEx EUnsetAnnotations => Some (SAnnotations, None)
  | PType (TSetAnnotations m) => Some (SAnnotations, option_map CAnns m) | PType TUnsetAnnotations => Some (SAnnotations, None)
  | PType (TSetExtraFacets m) => Some (SExtra, option_map CExtra m) | PType TUnsetExtraFacets => Some (SExtra, None)
  | PType (TSetExamples m) => Some (SExamples, option_map CExamples m) | PType TUnsetExamples => Some (SExamples, None)
  | PType (TSetFacetDefinitions m) => Some (SFacetDefinitions, option_map CFacets m) | PType TUnsetFacetDefinitions => Some (SFacetDefinitions, None)
  | PType (TSetProperties m) => Some (SProperties, option_map CProps m) | PType TUnsetProperties => Some (SProperties, None)
  | _ => None
  end.

Definition is_plain (p : plain_op) : bool := match map_op p with None => true | Some _ => false end.

Inductive call : Type :=
| Make (o : obj)                               (* a constructor or a reader returns an object; its maps are its own *)
| MakeMap (c : cell)                           (* raml.New...Map, and what was put into it before it is used *)
| Edit (r : nat) (e : edit)                    (* a method of a map *)
| SetMap (i : nat) (s : slot) (r : option nat) (* SetX(m); nil is UnsetX: a new map *)
| UnsetMap (i : nat) (s : slot)
| SetPlain (i : nat) (p : plain_op).

Definition update (r : slot -> nat) (s : slot) (n : nat) : slot -> nat := fun t => if Nat.eqb (slot_index t) (slot_index s) then n else r t.

Fixpoint replace_nth {A} (i : nat) (f : A -> A) (l : list A) : list A :=
  match i, l with
  | _, [] => []
  | O, a :: l => f a :: l
  | S i, a :: l => a :: replace_nth i f l
  end.

(** A fresh map in the place of an old one: if m == nil { return o.UnsetX() }; UnsetX: o.x = raml.New...Map(0) *)
Definition unset_map (i : nat) (s : slot) (w : memory) : memory :=
  match nth_error (objects w) i with
  | Some (o, r) =>
    if settable s o then mkMem (replace_nth i (fun e => (fst e, update (snd e) s (List.length (maps w)))) (objects w)) (maps w ++ [blank_cell s]) else w
  | None => w
  end.

(** A call that Go would not compile (no such method, another type of map), or on a nil pointer, has no effect here. *)
Definition perform (c : call) (w : memory) : memory :=
  match c with
  | Make o => mkMem (objects w ++ [(o, fun s => List.length (maps w) + slot_index s)])
                (maps w ++ map (fun s => match get_map s o with Some c => c | None => blank_cell s end) all_slots)
  | MakeMap c => mkMem (objects w) (maps w ++ [c])
  | Edit r e => mkMem (objects w) (replace_nth r (edit_cell e) (maps w))
  | SetMap i s (Some r) =>
    match nth_error (objects w) i, nth_error (maps w) r with
    | Some (o, _), Some c => if settable s o && cell_fits s c then mkMem (replace_nth i (fun e => (fst e, update (snd e) s r)) (objects w)) (maps w) else w
    | _, _ => w
    end
  | SetMap i s None | UnsetMap i s => unset_map i s w
  | SetPlain i p => if is_plain p then mkMem (replace_nth i (fun e => (plain_apply p (fst e), snd e)) (objects w)) (maps w) else w
  end.

Definition performs (cs : list call) (w : memory) : memory := fold_left (fun w c => perform c w) cs w.

(** ** What is seen *)

(** The address a getter returns. *)
Definition got (w : memory) (i : nat) (s : slot) : option nat :=
  match nth_error (objects w) i with
  | Some (o, r) => match get_map s o with Some _ => Some (r s) | None => None end
  | None => None
  end.

(** The object with the maps it has now: what its methods work on. *)
Definition with_maps (ms : list cell) (r : slot -> nat) (o : obj) : obj :=
  fold_right (fun s o => match nth_error ms (r s) with Some c => set_map s c o | None => o end) o all_slots.
Definition view (w : memory) (i : nat) : option obj :=
  match nth_error (objects w) i with Some (o, r) => Some (with_maps (maps w) r o) | None => None end.
