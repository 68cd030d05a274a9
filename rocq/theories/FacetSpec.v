(** Vocabulary for the properties of single facets: which facets a kind has, under which key, and which value a node declares
    for a facet.  It mentions the reader of whole type definitions only where a facet's value is itself a type. *)
From Coq Require Import SpecFloat.
From Verif Require Import Base Num OMap OMapSpec Keys Yaml Values Assign Meta Xml Example DataType AssignProofs Fields.

(** The facets of property C25 and their keys. *)
Definition facet_key (f : field) : option string :=
  match f with
  | FMinLength => Some "minLength" | FMaxLength => Some "maxLength" | FPattern => Some "pattern"
  | FMinItems => Some "minItems" | FMaxItems => Some "maxItems" | FUnique => Some "uniqueItems"
  | FItems => Some "items"
  | FMinimum => Some "minimum" | FMaximum => Some "maximum" | FMultipleOf => Some "multipleOf"
  | FFormat => Some "format" | FFileTypes => Some "fileTypes"
  | FMinProps => Some "minProperties" | FMaxProps => Some "maxProperties"
  | FAddl => Some "additionalProperties"
  | FDiscr => Some "discriminator" | FDiscrVal => Some "discriminatorValue"
  | FProps => Some "properties"
  | FEnum => Some "enum" | FRequired => Some "required"
  | FDisplay => Some "displayName" | FDescr => Some "description"
  | FFacets => Some "facets" | FXml => Some "xml" | FExample => Some "example" | FExamples => Some "examples"
  | FType | FExtra | FAnns | FDefault => None
  end.

(** The facets special to a kind. *)
Definition own_facets (k : dkind) : list field :=
  match k with
  | TyArray => [FMinItems; FMaxItems; FUnique; FItems]
  | TyDatetime => [FFormat]
  | TyFile => [FFileTypes; FMinLength; FMaxLength]
  | TyInteger | TyNumber => [FMinimum; FMaximum; FFormat; FMultipleOf]
  | TyObject => [FProps; FMinProps; FMaxProps; FAddl; FDiscr; FDiscrVal]
  | TyString => [FPattern; FMinLength; FMaxLength]
  | _ => []
  end.

(** The facets all kinds have, but for nil and include. *)
Definition common_facets : list field :=
  [FEnum; FRequired; FDisplay; FDescr; FFacets; FXml; FExample; FExamples].

Definition facets_of (k : dkind) : list field :=
  match k with
  | TyNil | TyInclude => []
  | _ => own_facets k ++ common_facets
  end.

(** The keys that have a meaning for a kind. *)
Definition known_keys (k : dkind) : list string :=
  "type" :: "schema" :: flat_map (fun f => match facet_key f with Some s => [s] | None => [] end) (facets_of k).

(** A key naming an annotation. *)
Definition is_annotation_key (key : node) : bool :=
  is_string key && match value key with String c _ => Ascii.eqb c "(" | EmptyString => false end.

(** The value of an enum element. *)
Definition enum_value {F : FloatIO} (k : dkind) (n : node) (v : gval) : Prop :=
  match k with
  | TyString | TyDateOnly | TyDatetime | TyDatetimeOnly | TyTimeOnly => exists s, denotes_string n s /\ v = GStr s
  | TyBool => exists b, denotes_bool n b /\ v = GBool b
  | TyInteger => exists z, denotes_int n z /\ v = GInt z
  | TyNumber => exists f, denotes_float n f /\ v = GFloat f
  | _ => v = GNode n
  end.

(** What an int64 becomes in a field of type uint: itself; but see C19 for negative ones. *)
Definition as_unsigned (z z' : Z) : Prop :=
  ((0 <= z)%Z -> z' = z) /\ ((z < 0)%Z -> z' = (z + 2 ^ 64)%Z).

(** [declared rd k f n old v]: in a type of kind [k], the node [n] under the key of facet [f] says that the value of the facet is
    [v]; [old] matters only for facets that add up. [rd] reads types. *)
Definition declared {F : FloatIO} (rd : node -> dtype -> Prop) (k : dkind) (f : field) (n : node) (old v : fval) : Prop :=
  match f with
  | FPattern | FFormat | FDiscr | FDisplay | FDescr => exists s, denotes_string n s /\ v = VOptStr (Some s)
  | FUnique | FAddl | FRequired => exists b, denotes_bool n b /\ v = VBool b
  | FMinItems | FMaxItems | FMinLength => exists z z', denotes_int n z /\ as_unsigned z z' /\ v = VInt z'
  | FMinProps | FMaxProps => exists z z', denotes_int n z /\ as_unsigned z z' /\ v = VOptInt (Some z')
  | FMaxLength =>
    exists z z', denotes_int n z /\ as_unsigned z z' /\
                 v = match k with TyString => VOptInt (Some z') | _ => VInt z' end
  | FMinimum | FMaximum =>
    match k with
    | TyInteger => exists z, denotes_int n z /\ v = VOptInt (Some z)
    | _ => exists x, denotes_float n x /\ v = VOptFloat (Some x)
    end
  | FMultipleOf => exists x, denotes_float n x /\ v = VOptFloat (Some x)
  | FFileTypes => exists l, denotes_strings n l /\ v = VStrs (Some l)
  | FDiscrVal => v = VOptVal (Some (GNode n))
  | FItems => exists t, rd n t /\ v = VOptType (Some t)
  | FProps =>
    exists t l kvs m, n = Map t l /\ old = VTypes m /\
      Forall2 (fun e kv => denotes_string (fst e) (fst kv) /\ rd (snd e) (snd kv) /\
                           (forall b, snd kv <> TBase b)) l kvs /\
      v = VTypes (fold_left (fun m kv => mput (fst kv) (snd kv) m) kvs m)
  | FEnum =>
    exists t l vs o, n = Seq t l /\ old = VVals o /\ Forall2 (enum_value k) l vs /\
      v = VVals (match vs with [] => o | _ => Some (opt_list o ++ vs) end)
  | FFacets =>
    exists t l kvs m, n = Map t l /\ old = VFacets m /\
      Forall2 (fun e kv => denotes_string (fst e) (fst kv) /\
                 exists t' l' tys, snd e = Map t' l' /\
                   Forall2 (fun e' kv' => denotes_string (fst e') (fst kv') /\ rd (snd e') (snd kv')) l' tys /\
                   snd kv = fold_left (fun m kv => mput (fst kv) (snd kv) m) tys anew) l kvs /\
      v = VFacets (fold_left (fun m kv => mput (fst kv) (snd kv) m) kvs m)
  | FXml => exists x, xml_unmarshal n new_xml = Ok x /\ v = VXml (Some x)
  | FExample => k <> TyAny /\ exists e, read_ex k n = Ok e /\ v = VEx (Some e)
  | FExamples =>
    exists t l kvs m, n = Map t l /\ old = VExs m /\
      Forall2 (fun e kv => denotes_string (fst e) (fst kv) /\ read_ex k (snd e) = Ok (snd kv)) l kvs /\
      v = VExs (fold_left (fun m kv => mput (fst kv) (snd kv) m) kvs m)
  | FType | FExtra | FAnns | FDefault => False
  end.

(** The value a facet has when it is not mentioned: the RAML defaults. *)
Definition default_value (k : dkind) (f : field) : fval :=
  match f with
  | FRequired => VBool true
  | FAddl => VBool true
  | FUnique => VBool false
  | FMinItems => VInt 0
  | FMaxItems => VInt 2147483647
  | FMinLength => VInt 0
  | FMaxLength => match k with TyFile => VInt 2147483647 | _ => VOptInt None end
  | FMinProps | FMaxProps => VOptInt None
  | FMinimum | FMaximum => match k with TyInteger => VOptInt None | _ => VOptFloat None end
  | FMultipleOf => VOptFloat None
  | FPattern | FFormat | FDiscr | FDisplay | FDescr => VOptStr None
  | FFileTypes => VStrs None
  | FDiscrVal | FDefault => VOptVal None
  | FItems => VOptType None
  | FProps => VTypes (mkMap [] false)
  | FEnum => VVals None
  | FFacets => VFacets (mkMap [] true)
  | FXml => VXml None
  | FExample => VEx None
  | FExamples => VExs (mkMap [] false)
  | FType => VStr (kind_name k)
  | FExtra => VExtra (mkMap [] true)
  | FAnns => VAnns (mkMap [] true)
  end.

(** A key without meaning for the kind. *)
Definition extra_key (k : dkind) (key : node) : bool :=
  negb (existsb (String.eqb (value key)) (known_keys k)) &&
  match k with TyNil | TyInclude => true | _ => negb (is_annotation_key key) end.

(** The kind of an expanded definition. *)
Definition no_type_key (l : list (node * node)) : Prop :=
  forall e, In e l -> value (fst e) <> "type" /\ value (fst e) <> "schema".
