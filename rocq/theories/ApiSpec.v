(** What reading a documentation entry, an API document and a library says (C43, C48, C53). *)
From Coq Require Import SpecFloat.
From Verif Require Import Base Num OMap OMapSpec Keys Yaml Values Assign Formats Meta Out Xml Example DataType Marshal Doc Api Library
  AssignProofs TypeFacts Fields FieldProofs FacetSpec FacetProofs DocProofs OrderProofs PathProofs Lens Segs ExProofs ApiFields.

(** The pairs of a mapping and the elements of a sequence; none for other nodes. *)
Definition pairs_of (n : node) : list (node * node) := match n with Map _ l => l | _ => [] end.
Definition items_of (n : node) : list node := match n with Seq _ l => l | _ => [] end.

(** The values of the pairs with a key, and what is inside them, in the order of the document. *)
Definition sections (s : string) (l : list (node * node)) : list node := map snd (filter (named_key s) l).
Definition entries_under (s : string) (l : list (node * node)) : list (node * node) := flat_map pairs_of (sections s l).
Definition items_under (s : string) (l : list (node * node)) : list node := flat_map items_of (sections s l).

(** A map that has been filled with what [R] says of each pair; [mputs] is Put for each, in order. *)
Definition filled {V} (R : node -> V -> Prop) (l : list (node * node)) (m : amap string V) : Prop :=
  exists kvs, Forall2 (fun e kv => denotes_string (fst e) (fst kv) /\ R (snd e) (snd kv)) l kvs /\ m = mputs kvs (mkMap [] false).

(** Any value, unchanged. *)
Definition as_is (n : node) (v : gval) : Prop := v = GNode n.

(** ** Documentation entries *)

(** The text of a node: nothing is required of it. *)
Definition doc_document {F : FloatIO} (l : list (node * node)) (d : doc) : Prop :=
  (match last_of (fun p => String.eqb (value (fst p)) "title") l with Some p => doc_title d = value (snd p) | None => doc_title d = "" end) /\
  (match last_of (fun p => String.eqb (value (fst p)) "content") l with Some p => doc_content d = value (snd p) | None => doc_content d = "" end) /\
  (exists kvs, Forall2 (fun p kv => to_scalar (fst p) = Ok (fst kv) /\ snd kv = GNode (snd p))
                 (filter (fun p => negb (existsb (String.eqb (value (fst p))) ["title"; "content"])) l) kvs /\
               doc_extra d = kputs kvs (mkMap [] false)).
Definition doc_acceptable {F : FloatIO} (p : node * node) : Prop :=
  In (value (fst p)) ["title"; "content"] \/ exists k, to_scalar (fst p) = Ok k.

(** A node that describes a documentation entry. *)
Definition describes_doc {F : FloatIO} (n : node) (d : doc) : Prop :=
  exists t l, n = Map t l /\ Forall doc_acceptable l /\ doc_document l d.

(** ** API documents *)

Definition is_resource_key (key : node) : bool :=
  is_string key && match value key with String c _ => Ascii.eqb c "/" | EmptyString => false end.

Definition api_names : list string :=
  ["title"; "version"; "baseUri"; "description"; "protocols"; "mediaType"; "documentation"; "securedBy"; "uses"; "securitySchemes";
   "baseUriParameters"; "traits"; "annotationTypes"; "resourceTypes"; "types"; "schemas"].

(** Neither an annotation, nor a resource, nor a known key. *)
Definition api_extra_key (p : node * node) : bool :=
  negb (is_string (fst p) && (is_annotation_key (fst p) || is_resource_key (fst p) || existsb (String.eqb (value (fst p))) ("" :: api_names))).

Definition is_types_key (p : node * node) : bool := named_key "types" p || named_key "schemas" p.

(** A mediaType that is a string adds to the list; a list replaces it. *)
Inductive media_list : option (list string) -> list node -> option (list string) -> Prop :=
| media_end old : media_list old [] old
| media_string old n s r o : denotes_string n s -> media_list (Some (opt_list old ++ [s])) r o -> media_list old (n :: r) o
| media_strings old n ss r o : node_tag n <> TStr -> denotes_strings n ss -> media_list (Some ss) r o -> media_list old (n :: r) o.

Definition api_document {F : FloatIO} (l : list (node * node)) (a : api) : Prop :=
  said l "title" denotes_string "" (a_title a) /\
  said l "version" (fun n o => exists s, denotes_string n s /\ o = Some s) None (a_version a) /\
  said l "baseUri" (fun n o => exists s, denotes_string n s /\ o = Some s) None (a_baseURI a) /\
  said l "description" (fun n o => exists s, denotes_string n s /\ o = Some s) None (a_description a) /\
  said l "protocols" (fun n o => exists s, denotes_strings n s /\ o = Some s) None (a_protocols a) /\
  said l "securedBy" (fun n o => exists s, denotes_strings n s /\ o = Some s) None (a_securedBy a) /\
  media_list None (sections "mediaType" l) (a_mediaType a) /\
  (exists ds, Forall2 describes_doc (items_under "documentation" l) ds /\ a_documentation a = match ds with [] => None | _ => Some ds end) /\
  filled denotes_string (entries_under "uses" l) (a_uses a) /\
  filled as_is (entries_under "securitySchemes" l) (a_securitySchemes a) /\
  filled as_is (entries_under "baseUriParameters" l) (a_baseURIParameters a) /\
  filled as_is (entries_under "traits" l) (a_traits a) /\
  filled as_is (entries_under "annotationTypes" l) (a_annotationTypes a) /\
  filled as_is (entries_under "resourceTypes" l) (a_resourceTypes a) /\
  filled (fun n d => hat n = Ok d) (flat_map pairs_of (map snd (filter is_types_key l))) (a_types a) /\
  (exists kvs, Forall2 ann_entry (filter (fun p => is_annotation_key (fst p)) l) kvs /\ a_annotations a = mputs kvs (mkMap [] false)) /\
  a_resources a = mputs (map (fun p => (value (fst p), GNode (snd p))) (filter (fun p => is_resource_key (fst p)) l)) (mkMap [] false) /\
  (exists kvs, Forall2 (fun p kv => to_scalar (fst p) = Ok (fst kv) /\ snd kv = GNode (snd p)) (filter api_extra_key l) kvs /\
               a_extra a = kputs kvs (mkMap [] false)).

(** A mapping with string keys whose values satisfy [R]. *)
Definition mapping_of (R : node -> Prop) (n : node) : Prop :=
  exists t l, n = Map t l /\ Forall (fun e => (exists s, denotes_string (fst e) s) /\ R (snd e)) l.

Definition api_acceptable {F : FloatIO} (p : node * node) : Prop :=
  ~ denotes_string (fst p) "" /\
  (existsb (fun s => named_key s p) ["title"; "version"; "baseUri"; "description"] = true -> exists s, denotes_string (snd p) s) /\
  (existsb (fun s => named_key s p) ["protocols"; "securedBy"] = true -> exists ss, denotes_strings (snd p) ss) /\
  (named_key "mediaType" p = true -> (exists s, denotes_string (snd p) s) \/ exists ss, denotes_strings (snd p) ss) /\
  (named_key "documentation" p = true -> exists t ns, snd p = Seq t ns /\ Forall (fun n => exists d, describes_doc n d) ns) /\
  (named_key "uses" p = true -> mapping_of (fun n => exists s, denotes_string n s) (snd p)) /\
  (existsb (fun s => named_key s p) ["securitySchemes"; "baseUriParameters"; "traits"; "annotationTypes"; "resourceTypes"] = true ->
     mapping_of (fun _ => True) (snd p)) /\
  (is_types_key p = true -> mapping_of (fun n => exists d, hat n = Ok d) (snd p)) /\
  (is_annotation_key (fst p) = true -> exists a, read_annotation (snd p) = Ok a) /\
  (api_extra_key p = true -> exists k, to_scalar (fst p) = Ok k).

(** ** Libraries *)

(** The known keys of a library are told by their text alone. *)
Definition text_key (s : string) (p : node * node) : bool := String.eqb (value (fst p)) s.

Definition said_by {B} (k : node * node -> bool) (l : list (node * node)) (R : node -> B -> Prop) (d o : B) : Prop :=
  match last_of k l with Some p => R (snd p) o | None => o = d end.

Definition pairs_under (k : node * node -> bool) (l : list (node * node)) : list (node * node) := flat_map pairs_of (map snd (filter k l)).

Definition lib_names : list string := ["annotationTypes"; "resourceTypes"; "types"; "schemas"; "traits"; "uses"; "usage"; "securitySchemes"].
Definition lib_types_key (p : node * node) : bool := text_key "types" p || text_key "schemas" p.

(** Neither an annotation nor a known key. *)
Definition lib_extra_key (p : node * node) : bool :=
  negb (existsb (String.eqb (value (fst p))) lib_names || is_annotation_key (fst p) || is_string (fst p) && String.eqb (value (fst p)) "").

Definition lib_document {F : FloatIO} (l : list (node * node)) (a : library) : Prop :=
  said_by (text_key "usage") l (fun n o => exists s, denotes_string n s /\ o = Some s) None (l_usage a) /\
  filled denotes_string (pairs_under (text_key "uses") l) (l_uses a) /\
  filled as_is (pairs_under (text_key "securitySchemes") l) (l_securitySchemes a) /\
  filled as_is (pairs_under (text_key "traits") l) (l_traits a) /\
  filled as_is (pairs_under (text_key "resourceTypes") l) (l_resourceTypes a) /\
  filled as_is (pairs_under (text_key "annotationTypes") l) (l_annotationTypes a) /\
  filled (fun n d => hat n = Ok d) (pairs_under lib_types_key l) (l_types a) /\
  (exists kvs, Forall2 ann_entry (filter (fun p => is_annotation_key (fst p)) l) kvs /\ l_annotations a = mputs kvs (mkMap [] false)) /\
  (exists kvs, Forall2 (fun p kv => to_scalar (fst p) = Ok (fst kv) /\ snd kv = GNode (snd p)) (filter lib_extra_key l) kvs /\
               l_extra a = kputs kvs (mkMap [] false)).

Definition lib_acceptable {F : FloatIO} (p : node * node) : Prop :=
  ~ denotes_string (fst p) "" /\
  (text_key "usage" p = true -> exists s, denotes_string (snd p) s) /\
  (text_key "uses" p = true -> mapping_of (fun n => exists s, denotes_string n s) (snd p)) /\
  (existsb (fun s => text_key s p) ["securitySchemes"; "traits"; "resourceTypes"; "annotationTypes"] = true -> mapping_of (fun _ => True) (snd p)) /\
  (lib_types_key p = true -> mapping_of (fun n => exists d, hat n = Ok d) (snd p)) /\
  (is_annotation_key (fst p) = true -> exists a, read_annotation (snd p) = Ok a) /\
  (lib_extra_key p = true -> exists k, to_scalar (fst p) = Ok k).

(** ** Writing *)

(** The order in which the fields of an API document are written, and the key of each. *)
Definition api_order : list afield :=
  [ATitle; AVersion; ABaseURI; ADescription; AProtocols; AMediaType; ADocumentation; ASecuredBy; AUses; ASecuritySchemes; ABaseURIParameters; ATraits;
   AAnnotationTypes; AResourceTypes; AAnnotations; AExtra; AResources; ATypes].

Definition api_key (f : afield) : string :=
  match f with
  | ATitle => "title" | AVersion => "version" | ABaseURI => "baseUri" | ADescription => "description" | AProtocols => "protocols"
  | AMediaType => "mediaType" | ADocumentation => "documentation" | ASecuredBy => "securedBy" | AUses => "uses"
  | ASecuritySchemes => "securitySchemes" | ABaseURIParameters => "baseUriParameters" | ATraits => "traits" | AAnnotationTypes => "annotationTypes"
  | AResourceTypes => "resourceTypes" | ATypes => "types" | AAnnotations | AExtra | AResources => ""
  end.

(** The keys written for a field: those of the map for annotations, extra facets and resources; otherwise its key, unless it is unset or an empty map. *)
Definition once (set : bool) (f : afield) : list gkey := if set then [KStr (api_key f)] else [].
Definition is_set {A} (o : option A) : bool := match o with Some _ => true | None => false end.
Definition filled_in {K V} (m : amap K V) : bool := match ents m with [] => false | _ => true end.

Definition api_field_keys (a : api) (f : afield) : list gkey :=
  match f with
  | ATitle => once true f
  | AVersion => once (is_set (a_version a)) f
  | ABaseURI => once (is_set (a_baseURI a)) f
  | ADescription => once (is_set (a_description a)) f
  | AProtocols => once (is_set (a_protocols a)) f
  | AMediaType => once (is_set (a_mediaType a)) f
  | ADocumentation => once (is_set (a_documentation a)) f
  | ASecuredBy => once (is_set (a_securedBy a)) f
  | AUses => once (filled_in (a_uses a)) f
  | ASecuritySchemes => once (filled_in (a_securitySchemes a)) f
  | ABaseURIParameters => once (filled_in (a_baseURIParameters a)) f
  | ATraits => once (filled_in (a_traits a)) f
  | AAnnotationTypes => once (filled_in (a_annotationTypes a)) f
  | AResourceTypes => once (filled_in (a_resourceTypes a)) f
  | ATypes => once (filled_in (a_types a)) f
  | AAnnotations => map KStr (map fst (ents (a_annotations a)))
  | AExtra => map fst (ents (a_extra a))
  | AResources => map KStr (map fst (ents (a_resources a)))
  end.

(** The maps have distinct keys (C01), and no annotation, extra facet or resource has the name of a section or of each other. *)
Definition api_tidy (a : api) : Prop :=
  NoDup (map fst (ents (a_annotations a))) /\ apart (map fst (ents (a_extra a))) = true /\ NoDup (map fst (ents (a_resources a))) /\
  (forall f, In f api_order -> api_key f <> "" ->
     ~ In (api_key f) (map fst (ents (a_annotations a))) /\ ~ In (KStr (api_key f)) (map fst (ents (a_extra a))) /\
     ~ In (api_key f) (map fst (ents (a_resources a)))) /\
  (forall s, In s (map fst (ents (a_annotations a))) ->
     ~ In (KStr s) (map fst (ents (a_extra a))) /\ ~ In s (map fst (ents (a_resources a)))) /\
  (forall s, In s (map fst (ents (a_resources a))) -> ~ In (KStr s) (map fst (ents (a_extra a)))).

(** The same for libraries. *)
Definition lib_order : list lfield := [LUsage; LUses; LSecuritySchemes; LTraits; LAnnotationTypes; LAnnotations; LResourceTypes; LExtra; LTypes].

Definition lib_key (f : lfield) : string :=
  match f with
  | LUsage => "usage" | LUses => "uses" | LSecuritySchemes => "securitySchemes" | LTraits => "traits" | LAnnotationTypes => "annotationTypes"
  | LResourceTypes => "resourceTypes" | LTypes => "types" | LAnnotations | LExtra => ""
  end.

Definition lib_once (set : bool) (f : lfield) : list gkey := if set then [KStr (lib_key f)] else [].
Definition lib_field_keys (l : library) (f : lfield) : list gkey :=
  match f with
  | LUsage => lib_once (is_set (l_usage l)) f
  | LUses => lib_once (filled_in (l_uses l)) f
  | LSecuritySchemes => lib_once (filled_in (l_securitySchemes l)) f
  | LTraits => lib_once (filled_in (l_traits l)) f
  | LAnnotationTypes => lib_once (filled_in (l_annotationTypes l)) f
  | LAnnotations => map KStr (map fst (ents (l_annotations l)))
  | LResourceTypes => lib_once (filled_in (l_resourceTypes l)) f
  | LExtra => map fst (ents (l_extra l))
  | LTypes => lib_once (filled_in (l_types l)) f
  end.

Definition lib_tidy (l : library) : Prop :=
  NoDup (map fst (ents (l_annotations l))) /\ apart (map fst (ents (l_extra l))) = true /\
  (forall f, In f lib_order -> lib_key f <> "" ->
     ~ In (lib_key f) (map fst (ents (l_annotations l))) /\ ~ In (KStr (lib_key f)) (map fst (ents (l_extra l)))) /\
  (forall s, In s (map fst (ents (l_annotations l))) -> ~ In (KStr s) (map fst (ents (l_extra l)))).
