(** Which documents can be loaded: the grammar of type definitions, API documents and libraries, and the documents at which loading panics. *)
From Coq Require Import SpecFloat.
From Verif Require Import Base Num Keys Yaml Values Meta DataType AssignProofs TypeFacts Fields FacetSpec FacetProofs DocProofs.

(** ** Values *)

Definition a_string (n : node) : Prop := exists s, denotes_string n s.
Definition a_bool (n : node) : Prop := exists b, denotes_bool n b.
Definition an_int (n : node) : Prop := exists z, denotes_int n z.

Section Grammar.
  Context {F : FloatIO}.

  Definition a_float (n : node) : Prop := exists x, denotes_float n x.

  (** A scalar that can be a key: a string, null, or an integer, a boolean or a floating-point number that can be read. *)
  Definition a_key (n : node) : Prop :=
    exists v, n = Scal TStr v \/ n = Scal TNull v \/ (n = Scal TInt v /\ an_int n) \/ (n = Scal TBool v /\ a_bool n) \/
              (n = Scal TFloat v /\ a_float n).

  (** A sequence of such values; a mapping from strings to such values; a mapping with such entries. *)
  Definition sequence (good : node -> Prop) (n : node) : Prop := exists t l, n = Seq t l /\ forall v, In v l -> good v.
  Definition mapping (good : node -> Prop) (n : node) : Prop :=
    exists t l, n = Map t l /\ forall e, In e l -> a_string (fst e) /\ good (snd e).
  Definition entries (good : node * node -> Prop) (n : node) : Prop := exists t l, n = Map t l /\ forall e, In e l -> good e.
  Definition anything (n : node) : Prop := True.

  (** ** Examples *)

  Definition example_value (k : dkind) (n : node) : Prop :=
    match k with
    | TyString | TyDateOnly | TyDatetime | TyDatetimeOnly | TyTimeOnly => a_string n
    | TyAny | TyCustom | TyFile | TyObject | TyUnion => True
    | TyArray => sequence anything n
    | TyBool => a_bool n
    | TyInteger => an_int n
    | TyNumber => a_float n
    | TyNil | TyInclude => False
    end.

  Inductive example_entry (k : dkind) : node * node -> Prop :=
  | exe_other key val : ~ a_string key -> a_key key -> example_entry k (key, val)
  | exe_annotation key val : is_annotation_key key = true -> mapping anything val -> example_entry k (key, val)
  | exe_text key val : denotes_string key "displayName" \/ denotes_string key "description" -> a_string val -> example_entry k (key, val)
  | exe_strict key val : denotes_string key "strict" -> a_bool val -> example_entry k (key, val)
  | exe_value key val : denotes_string key "value" -> example_value k val -> example_entry k (key, val)
  | exe_extra key val s : denotes_string key s -> a_key key -> s <> "" -> is_annotation_key key = false ->
      ~ In s ["displayName"; "description"; "strict"; "value"] -> example_entry k (key, val).

  (** A mapping is an example with metadata; anything else is a value. *)
  Definition example (k : dkind) (n : node) : Prop :=
    match n with Map _ l => forall e, In e l -> example_entry k e | _ => example_value k n end.

  (** ** XML settings *)

  Inductive xml_entry : node * node -> Prop :=
  | xml_flag key val : value key = "attribute" \/ value key = "wrapped" -> a_bool val -> xml_entry (key, val)
  | xml_text key val : value key = "name" \/ value key = "namespace" \/ value key = "prefix" -> a_string val -> xml_entry (key, val)
  | xml_other key val : ~ In (value key) ["attribute"; "wrapped"; "name"; "namespace"; "prefix"] -> a_key key -> xml_entry (key, val).

  (** ** Facets without types in them *)

  Definition enum_element (k : dkind) (n : node) : Prop := exists v, enum_value k n v.

  Definition plain_facet (k : dkind) (f : field) (n : node) : Prop :=
    match f with
    | FPattern | FFormat | FDiscr | FDisplay | FDescr => a_string n
    | FUnique | FAddl | FRequired => a_bool n
    | FMinItems | FMaxItems | FMinLength | FMaxLength | FMinProps | FMaxProps => an_int n
    | FMinimum | FMaximum => match k with TyInteger => an_int n | _ => a_float n end
    | FMultipleOf => a_float n
    | FFileTypes => sequence a_string n
    | FDiscrVal => True
    | FEnum => sequence (enum_element k) n
    | FXml => entries xml_entry n
    | FExample => k <> TyAny /\ example k n
    | FExamples => mapping (example k) n
    | _ => False
    end.

  (** ** Type definitions *)

  Inductive def_kind : node -> dkind -> Prop :=
  | kind_string n s k : denotes_string n s -> named s k -> def_kind n k
  | kind_include v : def_kind (Scal TInclude v) TyInclude
  | kind_map t l k : t <> TStr -> classified l k -> def_kind (Map t l) k.

  (** The kinds with facets. *)
  Definition full (k : dkind) : Prop := k <> TyNil /\ k <> TyInclude.

  Inductive loads : node -> Prop :=
  | loads_string n : a_string n -> loads n
  | loads_include v : loads (Scal TInclude v)
  | loads_map t l k : t <> TStr -> classified l k -> (forall e, In e l -> entry_loads k e) -> loads (Map t l)
  with entry_loads : dkind -> node * node -> Prop :=
  | entry_type k key val : value key = "type" \/ value key = "schema" -> a_string val -> entry_loads k (key, val)
  | entry_plain k key val f : In f (facets_of k) -> facet_key f = Some (value key) -> plain_facet k f val -> entry_loads k (key, val)
  | entry_items k key val : In FItems (facets_of k) -> value key = "items" -> loads val -> entry_loads k (key, val)
  | entry_properties k key t l : In FProps (facets_of k) -> value key = "properties" ->
      (forall e, In e l -> a_string (fst e) /\ loads (snd e) /\ exists k', def_kind (snd e) k' /\ full k') -> entry_loads k (key, Map t l)
  | entry_facets k key t l : In FFacets (facets_of k) -> value key = "facets" ->
      (forall e, In e l -> a_string (fst e) /\
         exists t' l', snd e = Map t' l' /\ forall e', In e' l' -> a_string (fst e') /\ loads (snd e')) -> entry_loads k (key, Map t l)
  | entry_annotation k key val : full k -> is_annotation_key key = true -> mapping anything val -> entry_loads k (key, val)
  | entry_extra k key val : extra_key k key = true -> (full k -> ~ denotes_string key "") -> entry_loads k (key, val).

  (** ** Panics *)

  (** Reading goes through a list from the front: the first that is not good is bad. *)
  Definition first {A} (good bad : A -> Prop) (l : list A) : Prop :=
    exists pre e post, l = pre ++ e :: post /\ (forall p, In p pre -> good p) /\ bad e.

  (** A mapping from strings in which the first entry that is not good is bad. *)
  Definition mapping_first (good bad : node -> Prop) (n : node) : Prop :=
    exists t l, n = Map t l /\ first (fun e => a_string (fst e) /\ good (snd e)) (fun e => a_string (fst e) /\ bad (snd e)) l.

  (** An example with an empty key. *)
  Definition example_dies (k : dkind) (n : node) : Prop :=
    exists t l, n = Map t l /\ first (example_entry k) (fun e => denotes_string (fst e) "") l.

  Definition a_property (n : node) : Prop := loads n /\ exists k, def_kind n k /\ full k.

  Inductive dies : node -> Prop :=
  | dies_map t l k pre e post : t <> TStr -> classified l k -> l = pre ++ e :: post ->
      (forall p, In p pre -> entry_loads k p) -> entry_dies k e -> dies (Map t l)
  with entry_dies : dkind -> node * node -> Prop :=
  | dies_empty k key val : full k -> denotes_string key "" -> entry_dies k (key, val)
  | dies_example k key val : full k -> k <> TyAny -> value key = "example" -> example_dies k val -> entry_dies k (key, val)
  | dies_examples k key val : full k -> value key = "examples" -> mapping_first (example k) (example_dies k) val -> entry_dies k (key, val)
  | dies_items k key val : In FItems (facets_of k) -> value key = "items" -> dies val -> entry_dies k (key, val)
  | dies_property k key t l pre e post : In FProps (facets_of k) -> value key = "properties" -> l = pre ++ e :: post ->
      (forall p, In p pre -> a_string (fst p) /\ a_property (snd p)) -> a_string (fst e) ->
      (dies (snd e) \/ (loads (snd e) /\ exists k', def_kind (snd e) k' /\ ~ full k')) -> entry_dies k (key, Map t l)
  | dies_facet k key t l pre e post t' l' pre' e' post' : In FFacets (facets_of k) -> value key = "facets" -> l = pre ++ e :: post ->
      (forall p, In p pre -> a_string (fst p) /\ mapping loads (snd p)) -> a_string (fst e) ->
      snd e = Map t' l' -> l' = pre' ++ e' :: post' ->
      (forall p, In p pre' -> a_string (fst p) /\ loads (snd p)) -> a_string (fst e') -> dies (snd e') -> entry_dies k (key, Map t l).

  (** ** Documentation, API documents, libraries *)

  Inductive doc_entry : node * node -> Prop :=
  | doc_text key val : value key = "title" \/ value key = "content" -> doc_entry (key, val)
  | doc_other key val : value key <> "title" -> value key <> "content" -> a_key key -> doc_entry (key, val).

  Definition lookup {A} (s : string) (l : list (string * A)) : option A :=
    match find (fun p => String.eqb s (fst p)) l with Some p => Some (snd p) | None => None end.

  (** What the value of a key of an API document must be. *)
  Definition api_value (s : string) : option (node -> Prop) := lookup s
    [("title", a_string); ("version", a_string); ("baseUri", a_string); ("description", a_string);
     ("protocols", sequence a_string); ("mediaType", fun n => a_string n \/ sequence a_string n);
     ("documentation", sequence (entries doc_entry)); ("securedBy", sequence a_string); ("uses", mapping a_string);
     ("securitySchemes", mapping anything); ("baseUriParameters", mapping anything); ("traits", mapping anything);
     ("annotationTypes", mapping anything); ("resourceTypes", mapping anything); ("types", mapping loads); ("schemas", mapping loads)].

  Inductive api_entry : node * node -> Prop :=
  | api_known key val s good : denotes_string key s -> api_value s = Some good -> good val -> api_entry (key, val)
  | api_annotation key val : is_annotation_key key = true -> mapping anything val -> api_entry (key, val)
  | api_resource key val r : denotes_string key (String "/" r) -> api_entry (key, val)
  | api_other key val : a_key key -> (forall s, denotes_string key s -> s <> "" /\ api_value s = None) -> is_annotation_key key = false -> api_entry (key, val).

  Inductive api_entry_dies : node * node -> Prop :=
  | api_empty key val : denotes_string key "" -> api_entry_dies (key, val)
  | api_type key val : denotes_string key "types" \/ denotes_string key "schemas" -> mapping_first loads dies val -> api_entry_dies (key, val).

  Definition api_loads (n : node) : Prop := entries api_entry n.
  Definition api_dies (n : node) : Prop := exists t l, n = Map t l /\ first api_entry api_entry_dies l.

  (** The keys of a library are told by their text, whatever they are. *)
  Definition lib_value (s : string) : option (node -> Prop) := lookup s
    [("annotationTypes", mapping (mapping anything)); ("resourceTypes", mapping anything); ("types", mapping loads); ("schemas", mapping loads);
     ("traits", mapping anything); ("uses", mapping a_string); ("usage", a_string); ("securitySchemes", mapping anything)].

  Inductive lib_entry : node * node -> Prop :=
  | lib_known key val good : lib_value (value key) = Some good -> good val -> lib_entry (key, val)
  | lib_annotation key val : is_annotation_key key = true -> mapping anything val -> lib_entry (key, val)
  | lib_other key val : a_key key -> lib_value (value key) = None -> ~ denotes_string key "" -> is_annotation_key key = false -> lib_entry (key, val).

  Inductive lib_entry_dies : node * node -> Prop :=
  | lib_empty key val : denotes_string key "" -> lib_entry_dies (key, val)
  | lib_type key val : value key = "types" \/ value key = "schemas" -> mapping_first loads dies val -> lib_entry_dies (key, val).

  Definition lib_loads (n : node) : Prop := entries lib_entry n.
  Definition lib_dies (n : node) : Prop := exists t l, n = Map t l /\ first lib_entry lib_entry_dies l.
End Grammar.
