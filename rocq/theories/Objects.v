(** Documents and everything in them by reference: API documents, libraries, type definitions, examples, XML settings, documentation entries, and all
    maps.  The model and the vocabulary of C79 and C80.  Where Deep.v has references to definitions and their maps only, here every object that a getter
    returns is one in memory.
    Simplified: the values in the maps that hold interface{} values or strings are values; so are slices of strings and of enum values, and slots of the
    slice that Documentation() returns cannot be assigned. *)
From Coq Require Import SpecFloat.
From Verif Require Import Base Num OMap OMapSpec Keys Yaml Values Assign Formats Meta Out Xml Example DataType Marshal Doc Api Library Setters Live.

(** ** Things *)

(** What a getter of the library may return that is not a plain value. *)
Inductive thing : Type :=
| ThApi (a : api) | ThLib (l : library) | ThDef (d : dtype) | ThEx (e : ex) | ThXml (x : xml) | ThDoc (d : doc) | ThDocs (l : list doc)
| ThDefs (m : amap string dtype) | ThFacets (m : amap string (amap string dtype)) | ThExs (m : amap string ex) | ThAnns (m : amap string untyped)
| ThUntyped (m : untyped) | ThStrings (m : amap string string) | ThExtra (m : amap gkey gval).

(** The getters that lead from one to another: those of fields; Get(k) of a map; the i-th of a slice. *)
Inductive field : Type :=
| FdTypes | FdTraits | FdResourceTypes | FdAnnotationTypes | FdAnnotations | FdSecuritySchemes | FdUses | FdResources | FdBaseUriParameters | FdExtraFacets
| FdDocumentation | FdXML | FdFacetDefinitions | FdExample | FdExamples | FdItems | FdProperties.
Inductive name : Type := NField (f : field) | NKey (k : string) | NIndex (i : nat).
Definition field_eqb (f g : field) : bool :=
  match f, g with
  | FdTypes, FdTypes | FdTraits, FdTraits | FdResourceTypes, FdResourceTypes | FdAnnotationTypes, FdAnnotationTypes | FdAnnotations, FdAnnotations
  | FdSecuritySchemes, FdSecuritySchemes | FdUses, FdUses | FdResources, FdResources | FdBaseUriParameters, FdBaseUriParameters | FdExtraFacets, FdExtraFacets
  | FdDocumentation, FdDocumentation | FdXML, FdXML | FdFacetDefinitions, FdFacetDefinitions | FdExample, FdExample | FdExamples, FdExamples
  | FdItems, FdItems | FdProperties, FdProperties => true
  | _, _ => false
  end.
Definition name_eqb (n m : name) : bool :=
  match n, m with
  | NField f, NField g => field_eqb f g
  | NKey k, NKey l => String.eqb k l
  | NIndex i, NIndex j => Nat.eqb i j
  | _, _ => false
  end.

Definition keyed {A} (f : A -> thing) (m : amap string A) : list (name * option thing) := map (fun e => (NKey (fst e), Some (f (snd e)))) (ents m).
Fixpoint indexed {A} (f : A -> thing) (i : nat) (l : list A) : list (name * option thing) :=
  match l with [] => [] | a :: l => (NIndex i, Some (f a)) :: indexed f (S i) l end.
Definition spec_parts (s : spec dtype) : list (name * option thing) :=
  match s with
  | SArray _ _ _ it => [(NField FdItems, option_map ThDef it)]
  | SObject ps _ _ _ _ _ => [(NField FdProperties, Some (ThDefs ps))]
  | _ => []
  end.

(** What its getters lead to; [None] is nil.  APISpec.go:54-295, Library.go:42-159, DataType.go, type-datatype-ext.go, x-gen-type-*.go, x-gen-ex-*.go,
    Documentation.go (fields); the order of the fields means nothing, that of the entries of a map is its own. *)
Definition parts (t : thing) : list (name * option thing) :=
  match t with
  | ThApi a =>
    [(NField FdTypes, Some (ThDefs (a_types a))); (NField FdTraits, Some (ThUntyped (a_traits a))); (NField FdResourceTypes, Some (ThUntyped (a_resourceTypes a)));
     (NField FdAnnotationTypes, Some (ThUntyped (a_annotationTypes a))); (NField FdAnnotations, Some (ThAnns (a_annotations a)));
     (NField FdSecuritySchemes, Some (ThUntyped (a_securitySchemes a))); (NField FdUses, Some (ThStrings (a_uses a)));
     (NField FdResources, Some (ThUntyped (a_resources a))); (NField FdBaseUriParameters, Some (ThUntyped (a_baseURIParameters a)));
     (NField FdExtraFacets, Some (ThExtra (a_extra a))); (NField FdDocumentation, option_map ThDocs (a_documentation a))]
  | ThLib l =>
    [(NField FdTypes, Some (ThDefs (l_types l))); (NField FdTraits, Some (ThUntyped (l_traits l))); (NField FdResourceTypes, Some (ThUntyped (l_resourceTypes l)));
     (NField FdAnnotationTypes, Some (ThUntyped (l_annotationTypes l))); (NField FdAnnotations, Some (ThAnns (l_annotations l)));
     (NField FdSecuritySchemes, Some (ThUntyped (l_securitySchemes l))); (NField FdUses, Some (ThStrings (l_uses l))); (NField FdExtraFacets, Some (ThExtra (l_extra l)))]
  | ThDef (TBase b) => [(NField FdExtraFacets, Some (ThExtra (b_extra b)))]
  | ThDef (TExt b x fs c s) =>
    [(NField FdExtraFacets, Some (ThExtra (b_extra b))); (NField FdAnnotations, Some (ThAnns (x_anns x))); (NField FdXML, option_map ThXml (x_xml x));
     (NField FdFacetDefinitions, Some (ThFacets fs)); (NField FdExample, option_map ThEx (c_example c)); (NField FdExamples, Some (ThExs (c_examples c)))] ++ spec_parts s
  | ThEx e => [(NField FdAnnotations, Some (ThAnns (ex_anns e))); (NField FdExtraFacets, Some (ThExtra (ex_extra e)))]
  | ThDoc d => [(NField FdExtraFacets, Some (ThExtra (doc_extra d)))]
  | ThDocs l => indexed ThDoc 0 l
  | ThDefs m => keyed ThDef m
  | ThFacets m => keyed ThDefs m
  | ThExs m => keyed ThEx m
  | ThAnns m => keyed ThUntyped m
  | ThXml _ | ThUntyped _ | ThStrings _ | ThExtra _ => []
  end.

Definition get_part (n : name) (t : thing) : option thing := match sget name_eqb n (parts t) with Some o => o | None => None end.

(** A chain of getters: a.Types().Get("A").Example().Annotations() *)
Fixpoint follow (ns : list name) (t : thing) : option thing :=
  match ns with
  | [] => Some t
  | n :: ns => match get_part n t with Some q => follow ns q | None => None end
  end.

(** ** Edits of things *)

(** Setters of each kind of object; methods of each kind of map. *)
Inductive act : Type :=
| AcApi (op : api_op) | AcLib (op : lib_op) | AcDef (op : type_op) | AcEx (op : ex_op) | AcXml (op : xml_op) | AcDoc (op : doc_op)
| AcDefs (o : op string dtype) | AcFacets (o : op string (amap string dtype)) | AcExs (o : op string ex) | AcAnns (o : op string untyped)
| AcUntyped (o : op string gval) | AcStrings (o : op string string) | AcExtra (o : op gkey gval).

Definition act_on (a : act) (t : thing) : thing :=
  match a, t with
  | AcApi op, ThApi a => ThApi (api_apply op a)
  | AcLib op, ThLib l => ThLib (lib_apply op l)
  | AcDef op, ThDef d => ThDef (type_apply op d)
  | AcEx op, ThEx e => ThEx (ex_apply op e)
  | AcXml op, ThXml x => ThXml (xml_apply op x)
  | AcDoc op, ThDoc d => ThDoc (doc_apply op d)
  | AcDefs o, ThDefs m => ThDefs (map_edit String.eqb o m)
  | AcFacets o, ThFacets m => ThFacets (map_edit String.eqb o m)
  | AcExs o, ThExs m => ThExs (map_edit String.eqb o m)
  | AcAnns o, ThAnns m => ThAnns (map_edit String.eqb o m)
  | AcUntyped o, ThUntyped m => ThUntyped (map_edit String.eqb o m)
  | AcStrings o, ThStrings m => ThStrings (map_edit String.eqb o m)
  | AcExtra o, ThExtra m => ThExtra (map_edit gkey_eqb o m)
  | _, _ => t
  end.

(** [q] where the getter leads. *)
Definition replaced {A} (k : string) (a : A) (m : amap string A) : amap string A := mkMap (sreplace String.eqb k a (ents m)) (oord m).
Definition put_part (n : name) (q t : thing) : thing :=
  match t with
  | ThApi a =>
    match n, q with
    | NField FdTypes, ThDefs m => ThApi (a_set_types m a)
    | NField FdTraits, ThUntyped m => ThApi (a_set_traits m a)
    | NField FdResourceTypes, ThUntyped m => ThApi (a_set_resourceTypes m a)
    | NField FdAnnotationTypes, ThUntyped m => ThApi (a_set_annotationTypes m a)
    | NField FdAnnotations, ThAnns m => ThApi (a_set_annotations m a)
    | NField FdSecuritySchemes, ThUntyped m => ThApi (a_set_securitySchemes m a)
    | NField FdUses, ThStrings m => ThApi (a_set_uses m a)
    | NField FdResources, ThUntyped m => ThApi (a_set_resources m a)
    | NField FdBaseUriParameters, ThUntyped m => ThApi (a_set_baseURIParameters m a)
    | NField FdExtraFacets, ThExtra m => ThApi (a_set_extra m a)
    | NField FdDocumentation, ThDocs l => ThApi (a_set_documentation (Some l) a)
    | _, _ => t
    end
  | ThLib l =>
    match n, q with
    | NField FdTypes, ThDefs m => ThLib (l_set_types m l)
    | NField FdTraits, ThUntyped m => ThLib (l_set_traits m l)
    | NField FdResourceTypes, ThUntyped m => ThLib (l_set_resourceTypes m l)
    | NField FdAnnotationTypes, ThUntyped m => ThLib (l_set_annotationTypes m l)
    | NField FdAnnotations, ThAnns m => ThLib (l_set_annotations m l)
    | NField FdSecuritySchemes, ThUntyped m => ThLib (l_set_securitySchemes m l)
    | NField FdUses, ThStrings m => ThLib (l_set_uses m l)
    | NField FdExtraFacets, ThExtra m => ThLib (l_set_extra m l)
    | _, _ => t
    end
  | ThDef (TBase b) =>
    match n, q with NField FdExtraFacets, ThExtra m => ThDef (TBase (mkBase (b_schema b) (b_kind b) m)) | _, _ => t end
  | ThDef (TExt b x fs c s) =>
    match n, q with
    | NField FdExtraFacets, ThExtra m => ThDef (TExt (mkBase (b_schema b) (b_kind b) m) x fs c s)
    | NField FdAnnotations, ThAnns m => ThDef (TExt b (mkExt (x_display x) (x_descr x) m (x_xml x) (x_required x)) fs c s)
    | NField FdXML, ThXml y => ThDef (TExt b (mkExt (x_display x) (x_descr x) (x_anns x) (Some y) (x_required x)) fs c s)
    | NField FdFacetDefinitions, ThFacets m => ThDef (TExt b x m c s)
    | NField FdExample, ThEx e => ThDef (TExt b x fs (mkCom (c_def c) (Some e) (c_examples c) (c_enum c)) s)
    | NField FdExamples, ThExs m => ThDef (TExt b x fs (mkCom (c_def c) (c_example c) m (c_enum c)) s)
    | NField FdItems, ThDef d => match s with SArray u mn mx _ => ThDef (TExt b x fs c (SArray u mn mx (Some d))) | _ => t end
    | NField FdProperties, ThDefs m => match s with SObject _ mn mx ad di dv => ThDef (TExt b x fs c (SObject m mn mx ad di dv)) | _ => t end
    | _, _ => t
    end
  | ThEx e =>
    match n, q with
    | NField FdAnnotations, ThAnns m => ThEx (mkEx (ex_display e) (ex_descr e) m (ex_value e) (ex_strict e) (ex_extra e))
    | NField FdExtraFacets, ThExtra m => ThEx (mkEx (ex_display e) (ex_descr e) (ex_anns e) (ex_value e) (ex_strict e) m)
    | _, _ => t
    end
  | ThDoc d => match n, q with NField FdExtraFacets, ThExtra m => ThDoc (mkDoc (doc_title d) (doc_content d) m) | _, _ => t end
  | ThDocs l => match n, q with NIndex i, ThDoc d => ThDocs (replace_nth i (fun _ => d) l) | _, _ => t end
  | ThDefs m => match n, q with NKey k, ThDef d => ThDefs (replaced k d m) | _, _ => t end
  | ThFacets m => match n, q with NKey k, ThDefs d => ThFacets (replaced k d m) | _, _ => t end
  | ThExs m => match n, q with NKey k, ThEx d => ThExs (replaced k d m) | _, _ => t end
  | ThAnns m => match n, q with NKey k, ThUntyped d => ThAnns (replaced k d m) | _, _ => t end
  | ThXml _ | ThUntyped _ | ThStrings _ | ThExtra _ => t
  end.

(** The edit in the place the getters lead to; no place, no edit. *)
Fixpoint edit_at (ns : list name) (a : act) (t : thing) : thing :=
  match ns with
  | [] => act_on a t
  | n :: ns => match get_part n t with Some q => put_part n (edit_at ns a q) t | None => t end
  end.

(** ** Objects in memory *)

(** An object without what its getters lead to: its strings, numbers, flags ... *)
Definition bare_spec (s : spec dtype) : spec dtype :=
  match s with SArray u mn mx _ => SArray u mn mx None | SObject _ mn mx ad di dv => SObject blank mn mx ad di dv | _ => s end.
Definition bare (t : thing) : thing :=
  match t with
  | ThApi a =>
    ThApi (mkApi (a_title a) (a_description a) (a_version a) (a_baseURI a) blank (a_protocols a) (a_mediaType a) None blank blank blank blank blank blank (a_securedBy a) blank blank blank)
  | ThLib l => ThLib (mkLib blank blank blank blank blank blank blank blank (l_usage l))
  | ThDef (TBase b) => ThDef (TBase (mkBase (b_schema b) (b_kind b) blank))
  | ThDef (TExt b x fs c s) =>
    ThDef (TExt (mkBase (b_schema b) (b_kind b) blank) (mkExt (x_display x) (x_descr x) blank None (x_required x)) blank (mkCom (c_def c) None blank (c_enum c)) (bare_spec s))
  | ThEx e => ThEx (mkEx (ex_display e) (ex_descr e) blank (ex_value e) (ex_strict e) blank)
  | ThDoc d => ThDoc (mkDoc (doc_title d) (doc_content d) blank)
  | ThDocs _ => ThDocs []
  | ThDefs m => ThDefs (mkMap [] (oord m))
  | ThFacets m => ThFacets (mkMap [] (oord m))
  | ThExs m => ThExs (mkMap [] (oord m))
  | ThAnns m => ThAnns (mkMap [] (oord m))
  | ThXml _ | ThUntyped _ | ThStrings _ | ThExtra _ => t
  end.

(** ... and its pointers: fields of an object, entries of a map, slots of a slice. *)
Record obj (R : Type) : Type := mkObj { own : thing; ptrs : list (name * option R) }.
Arguments mkObj {R}.
Arguments own {R}.
Arguments ptrs {R}.
Definition heap : Type := list (obj nat).

Definition h_get (h : heap) (n : name) (r : nat) : option nat :=
  match nth_error h r with
  | Some o => match sget name_eqb n (ptrs o) with Some p => p | None => None end
  | None => None
  end.
Fixpoint h_follow (h : heap) (ns : list name) (r : nat) : option nat :=
  match ns with
  | [] => Some r
  | n :: ns => match h_get h n r with Some r' => h_follow h ns r' | None => None end
  end.

(** New objects for a thing, all of it: what a reader makes of a document, and what a program makes with New...Type, New...Map and so on.  [tree]
    only lays the thing out. *)
Inductive tree : Type := Tree (o : thing) (ps : list (name * option tree)).
Definition leaf (t : thing) : tree := Tree (bare t) [].
Definition branches {A} (f : A -> tree) (m : amap string A) : list (name * option tree) := map (fun e => (NKey (fst e), Some (f (snd e)))) (ents m).
Definition lay_anns (m : amap string untyped) : tree := Tree (bare (ThAnns m)) (branches (fun u => leaf (ThUntyped u)) m).
Definition lay_ex (e : ex) : tree :=
  Tree (bare (ThEx e)) [(NField FdAnnotations, Some (lay_anns (ex_anns e))); (NField FdExtraFacets, Some (leaf (ThExtra (ex_extra e))))].
Definition lay_exs (m : amap string ex) : tree := Tree (bare (ThExs m)) (branches lay_ex m).
Definition lay_doc (d : doc) : tree := Tree (bare (ThDoc d)) [(NField FdExtraFacets, Some (leaf (ThExtra (doc_extra d))))].
Fixpoint lay_indexed (i : nat) (l : list doc) : list (name * option tree) :=
  match l with [] => [] | d :: l => (NIndex i, Some (lay_doc d)) :: lay_indexed (S i) l end.
Definition lay_docs (l : list doc) : tree := Tree (ThDocs []) (lay_indexed 0 l).
Fixpoint lay_def (d : dtype) : tree :=
  match d with
  | TBase b => Tree (bare (ThDef d)) [(NField FdExtraFacets, Some (leaf (ThExtra (b_extra b))))]
  | TExt b x fs c s =>
    Tree (bare (ThDef d))
     ([(NField FdExtraFacets, Some (leaf (ThExtra (b_extra b)))); (NField FdAnnotations, Some (lay_anns (x_anns x)));
       (NField FdXML, option_map (fun y => leaf (ThXml y)) (x_xml x));
       (NField FdFacetDefinitions, Some (Tree (bare (ThFacets fs)) (branches (fun m => Tree (bare (ThDefs m)) (branches lay_def m)) fs)));
       (NField FdExample, option_map lay_ex (c_example c)); (NField FdExamples, Some (lay_exs (c_examples c)))] ++
      match s with
      | SArray _ _ _ it => [(NField FdItems, option_map lay_def it)]
      | SObject ps _ _ _ _ _ => [(NField FdProperties, Some (Tree (bare (ThDefs ps)) (branches lay_def ps)))]
      | _ => []
      end)
  end.
Definition lay_defs (m : amap string dtype) : tree := Tree (bare (ThDefs m)) (branches lay_def m).
Definition lay_facets (m : amap string (amap string dtype)) : tree := Tree (bare (ThFacets m)) (branches lay_defs m).
Definition lay (t : thing) : tree :=
  match t with
  | ThApi a =>
    Tree (bare t)
     [(NField FdTypes, Some (lay_defs (a_types a))); (NField FdTraits, Some (leaf (ThUntyped (a_traits a)))); (NField FdResourceTypes, Some (leaf (ThUntyped (a_resourceTypes a))));
      (NField FdAnnotationTypes, Some (leaf (ThUntyped (a_annotationTypes a)))); (NField FdAnnotations, Some (lay_anns (a_annotations a)));
      (NField FdSecuritySchemes, Some (leaf (ThUntyped (a_securitySchemes a)))); (NField FdUses, Some (leaf (ThStrings (a_uses a))));
      (NField FdResources, Some (leaf (ThUntyped (a_resources a)))); (NField FdBaseUriParameters, Some (leaf (ThUntyped (a_baseURIParameters a))));
      (NField FdExtraFacets, Some (leaf (ThExtra (a_extra a)))); (NField FdDocumentation, option_map lay_docs (a_documentation a))]
  | ThLib l =>
    Tree (bare t)
     [(NField FdTypes, Some (lay_defs (l_types l))); (NField FdTraits, Some (leaf (ThUntyped (l_traits l)))); (NField FdResourceTypes, Some (leaf (ThUntyped (l_resourceTypes l))));
      (NField FdAnnotationTypes, Some (leaf (ThUntyped (l_annotationTypes l)))); (NField FdAnnotations, Some (lay_anns (l_annotations l)));
      (NField FdSecuritySchemes, Some (leaf (ThUntyped (l_securitySchemes l)))); (NField FdUses, Some (leaf (ThStrings (l_uses l)))); (NField FdExtraFacets, Some (leaf (ThExtra (l_extra l))))]
  | ThDef d => lay_def d
  | ThEx e => lay_ex e
  | ThDoc d => lay_doc d
  | ThDocs l => lay_docs l
  | ThDefs m => lay_defs m
  | ThFacets m => lay_facets m
  | ThExs m => lay_exs m
  | ThAnns m => lay_anns m
  | ThXml _ | ThUntyped _ | ThStrings _ | ThExtra _ => leaf t
  end.

Definition make_all (f : tree -> heap -> heap * nat) : list (name * option tree) -> heap -> heap * list (name * option nat) :=
  fix go l h :=
    match l with
    | [] => (h, [])
    | (n, None) :: l => let '(h, l) := go l h in (h, (n, None) :: l)
    | (n, Some t) :: l => let '(h, r) := f t h in let '(h, l) := go l h in (h, (n, Some r) :: l)
    end.
Fixpoint make (t : tree) (h : heap) : heap * nat :=
  match t with Tree o ps => let '(h, rs) := make_all make ps h in (h ++ [mkObj o rs], List.length h) end.

(** ** Edits in memory *)

(** What a call does to the pointers of its object: a setter assigns some of its fields, a method of a map changes its entries. *)
Inductive change (R : Type) : Type := Sets (l : list (name * option R)) | Entries (o : op name (option R)).
Arguments Sets {R}.
Arguments Entries {R}.

Definition op_names {A R} (f : A -> R) (o : op string A) : op name (option R) :=
  match o with
  | OPut k v => OPut (NKey k) (Some (f v))
  | OPutIfNotNil k v => OPutIfNotNil (NKey k) (option_map (fun v => Some (f v)) v)
  | OReplaceOrPut k v => OReplaceOrPut (NKey k) (Some (f v))
  | OReplaceIfExists k v => OReplaceIfExists (NKey k) (Some (f v))
  | ODelete k => ODelete (NKey k)
  | OSerializeOrdered b => OSerializeOrdered b
  | OGet k => OGet (NKey k)
  | OGetOpt k => OGetOpt (NKey k)
  | OHas k => OHas (NKey k)
  | OLen => OLen
  | OAt j => OAt j
  | OIndexOf k => OIndexOf (NKey k)
  | OForEach => OForEach
  end.

(** An unset field gets a new map. *)
Definition set_map {K V} (f : field) (th : amap K V -> thing) (m : option (amap K V)) : list (name * option thing) := [(NField f, Some (th (or_blank m)))].
Definition api_sets (op : api_op) : list (name * option thing) :=
  match op with
  | ASetDocumentation l => [(NField FdDocumentation, option_map ThDocs l)]
  | AUnsetDocumentation => [(NField FdDocumentation, None)]
  | ASetTypes m | ASetSchemas m => set_map FdTypes ThDefs m
  | AUnsetTypes | AUnsetSchemas => set_map FdTypes ThDefs None
  | ASetTraits m => set_map FdTraits ThUntyped m
  | AUnsetTraits => set_map FdTraits ThUntyped None
  | ASetResourceTypes m => set_map FdResourceTypes ThUntyped m
  | AUnsetResourceTypes => set_map FdResourceTypes ThUntyped None
  | ASetAnnotationTypes m => set_map FdAnnotationTypes ThUntyped m
  | AUnsetAnnotationTypes => set_map FdAnnotationTypes ThUntyped None
  | ASetAnnotations m => set_map FdAnnotations ThAnns m
  | AUnsetAnnotations => set_map FdAnnotations ThAnns None
  | ASetSecuritySchemes m => set_map FdSecuritySchemes ThUntyped m
  | AUnsetSecuritySchemes => set_map FdSecuritySchemes ThUntyped None
  | ASetUses m => set_map FdUses ThStrings m
  | AUnsetUses => set_map FdUses ThStrings None
  | _ => []
  end.
Definition lib_sets (op : lib_op) : list (name * option thing) :=
  match op with
  | LSetAnnotations m => set_map FdAnnotations ThAnns m
  | LUnsetAnnotations => set_map FdAnnotations ThAnns None
  | LSetUses m => set_map FdUses ThStrings m
  | LUnsetUses => set_map FdUses ThStrings None
  | LSetResourceTypes m => set_map FdResourceTypes ThUntyped m
  | LUnsetResourceTypes => set_map FdResourceTypes ThUntyped None
  | LSetTraits m => set_map FdTraits ThUntyped m
  | LUnsetTraits => set_map FdTraits ThUntyped None
  | LSetTypes m | LSetSchemas m => set_map FdTypes ThDefs m
  | LUnsetTypes | LUnsetSchemas => set_map FdTypes ThDefs None
  | _ => []
  end.
Definition type_sets (op : type_op) : list (name * option thing) :=
  match op with
  | TSetExample e => [(NField FdExample, option_map ThEx e)]
  | TUnsetExample => [(NField FdExample, None)]
  | TSetExamples m => set_map FdExamples ThExs m
  | TUnsetExamples => set_map FdExamples ThExs None
  | TSetAnnotations m => set_map FdAnnotations ThAnns m
  | TUnsetAnnotations => set_map FdAnnotations ThAnns None
  | TSetFacetDefinitions m => set_map FdFacetDefinitions ThFacets m
  | TUnsetFacetDefinitions => set_map FdFacetDefinitions ThFacets None
  | TSetXML x => [(NField FdXML, option_map ThXml x)]
  | TUnsetXML => [(NField FdXML, None)]
  | TSetExtraFacets m => set_map FdExtraFacets ThExtra m
  | TUnsetExtraFacets => set_map FdExtraFacets ThExtra None
  | TSetItems t => [(NField FdItems, option_map ThDef t)]
  | TUnsetItems => [(NField FdItems, None)]
  | TSetProperties m => set_map FdProperties ThDefs m
  | TUnsetProperties => set_map FdProperties ThDefs None
  | _ => []
  end.
Definition ex_sets (op : ex_op) : list (name * option thing) :=
  match op with
  | ESetAnnotations m => set_map FdAnnotations ThAnns m
  | EUnsetAnnotations => set_map FdAnnotations ThAnns None
  | _ => []
  end.
Definition change_of (a : act) : change thing :=
  match a with
  | AcApi op => Sets (api_sets op)
  | AcLib op => Sets (lib_sets op)
  | AcDef op => Sets (type_sets op)
  | AcEx op => Sets (ex_sets op)
  | AcXml _ | AcDoc _ | AcUntyped _ | AcStrings _ | AcExtra _ => Sets []
  | AcDefs o => Entries (op_names ThDef o)
  | AcFacets o => Entries (op_names ThDefs o)
  | AcExs o => Entries (op_names ThEx o)
  | AcAnns o => Entries (op_names ThUntyped o)
  end.

(** A call is a call of a method that the object has. *)
Definition fits (a : act) (t : thing) : bool :=
  match a, t with
  | AcApi _, ThApi _ | AcLib _, ThLib _ | AcDef _, ThDef (TExt _ _ _ _ _) | AcEx _, ThEx _ | AcXml _, ThXml _ | AcDoc _, ThDoc _ | AcDefs _, ThDefs _
  | AcFacets _, ThFacets _ | AcExs _, ThExs _ | AcAnns _, ThAnns _ | AcUntyped _, ThUntyped _ | AcStrings _, ThStrings _ | AcExtra _, ThExtra _ => true
  | _, _ => false
  end.

Definition change_ptrs {R} (c : change R) (ps : list (name * option R)) : list (name * option R) :=
  match c with
  | Sets l => fold_left (fun ps e => sreplace name_eqb (fst e) (snd e) ps) l ps
  | Entries o => match sstep name_eqb ps o with Some (l, _) => l | None => ps end
  end.
Definition change_obj {R} (a : act) (c : change R) (o : obj R) : obj R :=
  if fits a (own o) then mkObj (bare (act_on a (own o))) (change_ptrs c (ptrs o)) else o.

(** The objects a call is given are new. *)
Definition make_op (o : op name (option thing)) (h : heap) : heap * op name (option nat) :=
  let new v := match v with Some t => let '(h, r) := make (lay t) h in (h, Some r) | None => (h, None) end in
  match o with
  | OPut k v => let '(h, r) := new v in (h, OPut k r)
  | OPutIfNotNil k None => (h, OPutIfNotNil k None)
  | OPutIfNotNil k (Some v) => let '(h, r) := new v in (h, OPutIfNotNil k (Some r))
  | OReplaceOrPut k v => let '(h, r) := new v in (h, OReplaceOrPut k r)
  | OReplaceIfExists k v => let '(h, r) := new v in (h, OReplaceIfExists k r)
  | ODelete k => (h, ODelete k)
  | OSerializeOrdered b => (h, OSerializeOrdered b)
  | OGet k => (h, OGet k)
  | OGetOpt k => (h, OGetOpt k)
  | OHas k => (h, OHas k)
  | OLen => (h, OLen)
  | OAt j => (h, OAt j)
  | OIndexOf k => (h, OIndexOf k)
  | OForEach => (h, OForEach)
  end.
Definition lay_all (l : list (name * option thing)) : list (name * option tree) := map (fun e => (fst e, option_map lay (snd e))) l.
Definition make_change (c : change thing) (h : heap) : heap * change nat :=
  match c with
  | Sets l => let '(h, l) := make_all make (lay_all l) h in (h, Sets l)
  | Entries o => let '(h, o) := make_op o h in (h, Entries o)
  end.
Definition h_act (a : act) (r : nat) (h : heap) : heap := let '(h, c) := make_change (change_of a) h in replace_nth r (change_obj a c) h.

(** ** Programs *)

(** A program has variables that hold documents (or other objects it has read or made). *)
Inductive use : Type :=
| Open (x : nat) (t : thing)                      (* x := a new object *)
| Do (x : nat) (ns : list name) (a : act).        (* a call on the object that getters lead to from x *)

Definition bind_var {A} (x : nat) (v : A) (env : nat -> option A) : nat -> option A := fun y => if Nat.eqb y x then Some v else env y.

(** With values *)
Definition step (env : nat -> option thing) (u : use) : nat -> option thing :=
  match u with
  | Open x t => bind_var x t env
  | Do x ns a => match env x with Some t => bind_var x (edit_at ns a t) env | None => env end
  end.
Definition values (us : list use) : nat -> option thing := fold_left step us (fun _ => None).

(** With references *)
Definition h_step (s : heap * (nat -> option nat)) (u : use) : heap * (nat -> option nat) :=
  let '(h, env) := s in
  match u with
  | Open x t => let '(h, r) := make (lay t) h in (h, bind_var x r env)
  | Do x ns a =>
    match env x with
    | Some r => match h_follow h ns r with Some r' => (h_act a r' h, env) | None => s end
    | None => s
    end
  end.
Definition memory (us : list use) : heap * (nat -> option nat) := fold_left h_step us ([], fun _ => None).

(** ** What is in memory *)

(** The object at [r] is [t] for whoever calls getters: each chain of getters leads to an object if it leads to something in [t], and this object has the
    plain values and the fields, entries or slots of that. *)
Definition looks_like (h : heap) (r : nat) (t : thing) : Prop :=
  forall ns,
    match follow ns t with
    | Some q => exists r' o, h_follow h ns r = Some r' /\ nth_error h r' = Some o /\ own o = bare q /\ map fst (ptrs o) = map fst (parts q)
    | None => h_follow h ns r = None
    end.

(** No map in it has a key twice: true of everything that is read, and of everything made with the methods of maps. *)
Definition once (t : thing) : Prop := forall ns q, follow ns t = Some q -> NoDup (map fst (parts q)).
Definition given (o : op name (option thing)) : list thing :=
  match o with
  | OPut _ (Some t) | OPutIfNotNil _ (Some (Some t)) | OReplaceOrPut _ (Some t) | OReplaceIfExists _ (Some t) => [t]
  | _ => []
  end.
Definition once_act (a : act) : Prop :=
  match change_of a with
  | Sets l => forall n t, In (n, Some t) l -> once t
  | Entries o => forall t, In t (given o) -> once t
  end.
Definition once_use (u : use) : Prop := match u with Open _ t => once t | Do _ _ a => once_act a end.

(** Two chains of getters that part, so that neither leads through the place the other leads to. *)
Inductive forked : list name -> list name -> Prop :=
| forked_here n m ns ms : n <> m -> forked (n :: ns) (m :: ms)
| forked_later n ns ms : forked ns ms -> forked (n :: ns) (n :: ms).

(** ** Saving *)

(** An object with what its pointers lead to. *)
Definition field_of {A} (th : thing -> option A) (f : field) (ps : list (name * option thing)) : option A :=
  match sget name_eqb (NField f) ps with Some (Some t) => th t | _ => None end.
Definition as_defs (t : thing) := match t with ThDefs m => Some m | _ => None end.
Definition as_facets (t : thing) := match t with ThFacets m => Some m | _ => None end.
Definition as_exs (t : thing) := match t with ThExs m => Some m | _ => None end.
Definition as_anns (t : thing) := match t with ThAnns m => Some m | _ => None end.
Definition as_untyped (t : thing) := match t with ThUntyped m => Some m | _ => None end.
Definition as_strings (t : thing) := match t with ThStrings m => Some m | _ => None end.
Definition as_extra (t : thing) := match t with ThExtra m => Some m | _ => None end.
Definition as_docs (t : thing) := match t with ThDocs l => Some l | _ => None end.
Definition as_doc (t : thing) := match t with ThDoc d => Some d | _ => None end.
Definition as_def (t : thing) := match t with ThDef d => Some d | _ => None end.
Definition as_ex (t : thing) := match t with ThEx e => Some e | _ => None end.
Definition as_xml (t : thing) := match t with ThXml x => Some x | _ => None end.
Definition map_of {K V} (th : thing -> option (amap K V)) (f : field) (ps : list (name * option thing)) : amap K V := or_blank (field_of th f ps).
Definition entries_of {A} (th : thing -> option A) (ps : list (name * option thing)) : list (string * A) :=
  flat_map (fun e => match e with (NKey k, Some t) => match th t with Some a => [(k, a)] | None => [] end | _ => [] end) ps.
Definition slots_of {A} (th : thing -> option A) (ps : list (name * option thing)) : list A :=
  flat_map (fun e => match snd e with Some t => match th t with Some a => [a] | None => [] end | None => [] end) ps.
Definition join (o : thing) (ps : list (name * option thing)) : thing :=
  match o with
  | ThApi a =>
    ThApi (mkApi (a_title a) (a_description a) (a_version a) (a_baseURI a) (map_of as_untyped FdBaseUriParameters ps) (a_protocols a) (a_mediaType a) (field_of as_docs FdDocumentation ps)
             (map_of as_defs FdTypes ps) (map_of as_untyped FdTraits ps) (map_of as_untyped FdResourceTypes ps) (map_of as_untyped FdAnnotationTypes ps) (map_of as_anns FdAnnotations ps)
             (map_of as_untyped FdSecuritySchemes ps) (a_securedBy a) (map_of as_strings FdUses ps) (map_of as_untyped FdResources ps) (map_of as_extra FdExtraFacets ps))
  | ThLib l =>
    ThLib (l_set_types (map_of as_defs FdTypes ps) (l_set_traits (map_of as_untyped FdTraits ps) (l_set_resourceTypes (map_of as_untyped FdResourceTypes ps)
            (l_set_annotationTypes (map_of as_untyped FdAnnotationTypes ps) (l_set_annotations (map_of as_anns FdAnnotations ps) (l_set_securitySchemes (map_of as_untyped FdSecuritySchemes ps)
              (l_set_uses (map_of as_strings FdUses ps) (l_set_extra (map_of as_extra FdExtraFacets ps) l))))))))
  | ThDef (TBase b) => ThDef (TBase (mkBase (b_schema b) (b_kind b) (map_of as_extra FdExtraFacets ps)))
  | ThDef (TExt b x _ c s) =>
    ThDef (TExt (mkBase (b_schema b) (b_kind b) (map_of as_extra FdExtraFacets ps))
             (mkExt (x_display x) (x_descr x) (map_of as_anns FdAnnotations ps) (field_of as_xml FdXML ps) (x_required x)) (map_of as_facets FdFacetDefinitions ps)
             (mkCom (c_def c) (field_of as_ex FdExample ps) (map_of as_exs FdExamples ps) (c_enum c))
             match s with
             | SArray u mn mx _ => SArray u mn mx (field_of as_def FdItems ps)
             | SObject _ mn mx ad di dv => SObject (map_of as_defs FdProperties ps) mn mx ad di dv
             | _ => s
             end)
  | ThEx e => ThEx (mkEx (ex_display e) (ex_descr e) (map_of as_anns FdAnnotations ps) (ex_value e) (ex_strict e) (map_of as_extra FdExtraFacets ps))
  | ThDoc d => ThDoc (mkDoc (doc_title d) (doc_content d) (map_of as_extra FdExtraFacets ps))
  | ThDocs _ => ThDocs (slots_of as_doc ps)
  | ThDefs m => ThDefs (mkMap (entries_of as_def ps) (oord m))
  | ThFacets m => ThFacets (mkMap (entries_of as_defs ps) (oord m))
  | ThExs m => ThExs (mkMap (entries_of as_ex ps) (oord m))
  | ThAnns m => ThAnns (mkMap (entries_of as_untyped ps) (oord m))
  | ThXml _ | ThUntyped _ | ThStrings _ | ThExtra _ => o
  end.

(** All of the object at an address: what MarshalRAML and ToYAML go through, from object to object.  Simplified: in the code the nodes are made on the
    way.  An object can be as deep as there are objects, not deeper. *)
Definition whole_all (f : nat -> option thing) : list (name * option nat) -> option (list (name * option thing)) :=
  fix go l :=
    match l with
    | [] => Some []
    | (n, None) :: l => match go l with Some l => Some ((n, None) :: l) | None => None end
    | (n, Some r) :: l => match f r, go l with Some t, Some l => Some ((n, Some t) :: l) | _, _ => None end
    end.
Fixpoint whole_from (fuel : nat) (h : heap) (r : nat) : option thing :=
  match fuel with
  | O => None
  | S fuel =>
    match nth_error h r with
    | Some o => match whole_all (whole_from fuel h) (ptrs o) with Some ps => Some (join (own o) ps) | None => None end
    | None => None
    end
  end.
Definition whole (h : heap) (r : nat) : option thing := whole_from (List.length h) h r.

(** APISpec.go MarshalRAML, Library.go MarshalRAML, ToYAML of definitions and examples *)
Definition saved {F : FloatIO} (t : thing) : option (res node) :=
  match t with
  | ThApi a => Some (api_marshal a)
  | ThLib l => Some (lib_marshal l)
  | ThDef d => Some (to_yaml d)
  | ThEx e => Some (ex_to_yaml e)
  | _ => None
  end.
Definition h_saved {F : FloatIO} (h : heap) (r : nat) : option (res node) := match whole h r with Some t => saved t | None => None end.

(** ** Who uses what *)

Definition var_of (u : use) : nat := match u with Open x _ => x | Do x _ _ => x end.
(** The calls of those who own the variables in [P] *)
Definition own_calls (P : nat -> bool) (us : list use) : list use := filter (fun u => P (var_of u)) us.
(** The objects that getters lead to from a variable *)
Definition reaches (s : heap * (nat -> option nat)) (x : nat) (i : nat) : Prop := exists r ns, snd s x = Some r /\ h_follow (fst s) ns r = Some i.
(** The object that a call is made on *)
Definition target (s : heap * (nat -> option nat)) (u : use) : option nat :=
  match u with
  | Open _ _ => None
  | Do x ns a => match snd s x with Some r => h_follow (fst s) ns r | None => None end
  end.
(** Variable [x] holds [t]: this is what is at its address, whoever looks at all of it or goes through getters. *)
Definition holds (us : list use) (x : nat) (t : thing) : Prop :=
  exists r, snd (memory us) x = Some r /\ whole (fst (memory us)) r = Some t /\ looks_like (fst (memory us)) r t.
