(** v0/internal/raml/APISpec.go, pkg/raml/rparse/parse-api.go *)
From Coq Require Import SpecFloat.
From Verif Require Import Base Num OMap OMapSpec Keys Yaml Values Assign Formats Meta Out Xml Example DataType Marshal Doc.

(** APISpec.go:29-48.  [None] is a nil pointer or a nil slice. *)
Record api : Type := mkApi {
  a_title : string;
  a_description : option string;
  a_version : option string;
  a_baseURI : option string;
  a_baseURIParameters : untyped;
  a_protocols : option (list string);
  a_mediaType : option (list string);
  a_documentation : option (list doc);
  a_types : amap string dtype;
  a_traits : untyped;
  a_resourceTypes : untyped;
  a_annotationTypes : untyped;
  a_annotations : amap string untyped;
  a_securitySchemes : untyped;
  a_securedBy : option (list string);
  a_uses : amap string string;
  a_resources : untyped;
  a_extra : amap gkey gval
}.

(** Assignments to the fields. *)
Definition a_set_title (v : string) (a : api) : api :=
  mkApi v (a_description a) (a_version a) (a_baseURI a) (a_baseURIParameters a) (a_protocols a) (a_mediaType a) (a_documentation a) (a_types a) (a_traits a) (a_resourceTypes a) (a_annotationTypes a) (a_annotations a) (a_securitySchemes a) (a_securedBy a) (a_uses a) (a_resources a) (a_extra a).
Definition a_set_description (v : option string) (a : api) : api :=
  mkApi (a_title a) v (a_version a) (a_baseURI a) (a_baseURIParameters a) (a_protocols a) (a_mediaType a) (a_documentation a) (a_types a) (a_traits a) (a_resourceTypes a) (a_annotationTypes a) (a_annotations a) (a_securitySchemes a) (a_securedBy a) (a_uses a) (a_resources a) (a_extra a).
Definition a_set_version (v : option string) (a : api) : api :=
  mkApi (a_title a) (a_description a) v (a_baseURI a) (a_baseURIParameters a) (a_protocols a) (a_mediaType a) (a_documentation a) (a_types a) (a_traits a) (a_resourceTypes a) (a_annotationTypes a) (a_annotations a) (a_securitySchemes a) (a_securedBy a) (a_uses a) (a_resources a) (a_extra a).
Definition a_set_baseURI (v : option string) (a : api) : api :=
  mkApi (a_title a) (a_description a) (a_version a) v (a_baseURIParameters a) (a_protocols a) (a_mediaType a) (a_documentation a) (a_types a) (a_traits a) (a_resourceTypes a) (a_annotationTypes a) (a_annotations a) (a_securitySchemes a) (a_securedBy a) (a_uses a) (a_resources a) (a_extra a).
Definition a_set_baseURIParameters (v : untyped) (a : api) : api :=
  mkApi (a_title a) (a_description a) (a_version a) (a_baseURI a) v (a_protocols a) (a_mediaType a) (a_documentation a) (a_types a) (a_traits a) (a_resourceTypes a) (a_annotationTypes a) (a_annotations a) (a_securitySchemes a) (a_securedBy a) (a_uses a) (a_resources a) (a_extra a).
Definition a_set_protocols (v : option (list string)) (a : api) : api :=
  mkApi (a_title a) (a_description a) (a_version a) (a_baseURI a) (a_baseURIParameters a) v (a_mediaType a) (a_documentation a) (a_types a) (a_traits a) (a_resourceTypes a) (a_annotationTypes a) (a_annotations a) (a_securitySchemes a) (a_securedBy a) (a_uses a) (a_resources a) (a_extra a).
Definition a_set_mediaType (v : option (list string)) (a : api) : api :=
  mkApi (a_title a) (a_description a) (a_version a) (a_baseURI a) (a_baseURIParameters a) (a_protocols a) v (a_documentation a) (a_types a) (a_traits a) (a_resourceTypes a) (a_annotationTypes a) (a_annotations a) (a_securitySchemes a) (a_securedBy a) (a_uses a) (a_resources a) (a_extra a).
Definition a_set_documentation (v : option (list doc)) (a : api) : api :=
  mkApi (a_title a) (a_description a) (a_version a) (a_baseURI a) (a_baseURIParameters a) (a_protocols a) (a_mediaType a) v (a_types a) (a_traits a) (a_resourceTypes a) (a_annotationTypes a) (a_annotations a) (a_securitySchemes a) (a_securedBy a) (a_uses a) (a_resources a) (a_extra a).
Definition a_set_types (v : amap string dtype) (a : api) : api :=
  mkApi (a_title a) (a_description a) (a_version a) (a_baseURI a) (a_baseURIParameters a) (a_protocols a) (a_mediaType a) (a_documentation a) v (a_traits a) (a_resourceTypes a) (a_annotationTypes a) (a_annotations a) (a_securitySchemes a) (a_securedBy a) (a_uses a) (a_resources a) (a_extra a).
Definition a_set_traits (v : untyped) (a : api) : api :=
  mkApi (a_title a) (a_description a) (a_version a) (a_baseURI a) (a_baseURIParameters a) (a_protocols a) (a_mediaType a) (a_documentation a) (a_types a) v (a_resourceTypes a) (a_annotationTypes a) (a_annotations a) (a_securitySchemes a) (a_securedBy a) (a_uses a) (a_resources a) (a_extra a).
Definition a_set_resourceTypes (v : untyped) (a : api) : api :=
  mkApi (a_title a) (a_description a) (a_version a) (a_baseURI a) (a_baseURIParameters a) (a_protocols a) (a_mediaType a) (a_documentation a) (a_types a) (a_traits a) v (a_annotationTypes a) (a_annotations a) (a_securitySchemes a) (a_securedBy a) (a_uses a) (a_resources a) (a_extra a).
Definition a_set_annotationTypes (v : untyped) (a : api) : api :=
  mkApi (a_title a) (a_description a) (a_version a) (a_baseURI a) (a_baseURIParameters a) (a_protocols a) (a_mediaType a) (a_documentation a) (a_types a) (a_traits a) (a_resourceTypes a) v (a_annotations a) (a_securitySchemes a) (a_securedBy a) (a_uses a) (a_resources a) (a_extra a).
Definition a_set_annotations (v : amap string untyped) (a : api) : api :=
  mkApi (a_title a) (a_description a) (a_version a) (a_baseURI a) (a_baseURIParameters a) (a_protocols a) (a_mediaType a) (a_documentation a) (a_types a) (a_traits a) (a_resourceTypes a) (a_annotationTypes a) v (a_securitySchemes a) (a_securedBy a) (a_uses a) (a_resources a) (a_extra a).
Definition a_set_securitySchemes (v : untyped) (a : api) : api :=
  mkApi (a_title a) (a_description a) (a_version a) (a_baseURI a) (a_baseURIParameters a) (a_protocols a) (a_mediaType a) (a_documentation a) (a_types a) (a_traits a) (a_resourceTypes a) (a_annotationTypes a) (a_annotations a) v (a_securedBy a) (a_uses a) (a_resources a) (a_extra a).
Definition a_set_securedBy (v : option (list string)) (a : api) : api :=
  mkApi (a_title a) (a_description a) (a_version a) (a_baseURI a) (a_baseURIParameters a) (a_protocols a) (a_mediaType a) (a_documentation a) (a_types a) (a_traits a) (a_resourceTypes a) (a_annotationTypes a) (a_annotations a) (a_securitySchemes a) v (a_uses a) (a_resources a) (a_extra a).
Definition a_set_uses (v : amap string string) (a : api) : api :=
  mkApi (a_title a) (a_description a) (a_version a) (a_baseURI a) (a_baseURIParameters a) (a_protocols a) (a_mediaType a) (a_documentation a) (a_types a) (a_traits a) (a_resourceTypes a) (a_annotationTypes a) (a_annotations a) (a_securitySchemes a) (a_securedBy a) v (a_resources a) (a_extra a).
Definition a_set_resources (v : untyped) (a : api) : api :=
  mkApi (a_title a) (a_description a) (a_version a) (a_baseURI a) (a_baseURIParameters a) (a_protocols a) (a_mediaType a) (a_documentation a) (a_types a) (a_traits a) (a_resourceTypes a) (a_annotationTypes a) (a_annotations a) (a_securitySchemes a) (a_securedBy a) (a_uses a) v (a_extra a).
Definition a_set_extra (v : amap gkey gval) (a : api) : api :=
  mkApi (a_title a) (a_description a) (a_version a) (a_baseURI a) (a_baseURIParameters a) (a_protocols a) (a_mediaType a) (a_documentation a) (a_types a) (a_traits a) (a_resourceTypes a) (a_annotationTypes a) (a_annotations a) (a_securitySchemes a) (a_securedBy a) (a_uses a) (a_resources a) v.

(** APISpec.go:13-27 NewApiSpec *)
Definition new_api : api :=
  mkApi "" None None None anew_unordered None None None anew_unordered anew_unordered anew_unordered anew_unordered anew_unordered
        anew_unordered None anew_unordered anew_unordered anew_unordered.

Section Read.
  Context {F : FloatIO}.

  (** APISpec.go:397-402: a string is appended, otherwise the list replaces. *)
  Definition read_media (n : node) (old : option (list string)) : res (option (list string)) :=
    if is_string n then Ok (Some (match old with Some l => l | None => [] end ++ [value n]))
    else run_assign (as_string_list n old).

  (** APISpec.go:403-411; the first append makes the slice. *)
  Definition read_doc (old : option (list doc)) (n : node) : res (option (list doc)) :=
    do d <- doc_unmarshal n new_doc; Ok (Some (match old with Some l => l | None => [] end ++ [d])).
  Definition read_docs (n : node) (old : option (list doc)) : res (option (list doc)) := seq_fold read_doc old n.

  (** util-dt-map.go:9-23 UnmarshalDataTypeMapRAML; util-str-map.go; util-untyped-map.go *)
  Definition read_types (m : amap string dtype) (n : node) : res (amap string dtype) := read_amap hat m n.
  Definition read_strings (m : amap string string) (n : node) : res (amap string string) := read_amap to_str m n.
  Definition read_untyped (m : untyped) (n : node) : res untyped := read_amap as_gnode m n.

  (** APISpec.go:372-447 assign.  The index `k.Value[0]` panics on the empty key. *)
  Definition api_assign (a : api) (e : node * node) : res api :=
    let k := value (fst e) in
    let v := snd e in
    if negb (is_string (fst e)) then do s <- to_scalar (fst e); Ok (a_set_extra (kput s (GNode v) (a_extra a)) a)
    else
      match k with
      | EmptyString => Panic
      | String c _ =>
        if Ascii.eqb c "(" then do m <- read_annotation v; Ok (a_set_annotations (mput k m (a_annotations a)) a)
        else if Ascii.eqb c "/" then Ok (a_set_resources (mput k (GNode v) (a_resources a)) a)
        else if String.eqb k KeyTitle then do x <- run_assign (as_string v (a_title a)); Ok (a_set_title x a)
        else if String.eqb k KeyVersion then do x <- run_assign (as_string_ptr v (a_version a)); Ok (a_set_version x a)
        else if String.eqb k KeyBaseURI then do x <- run_assign (as_string_ptr v (a_baseURI a)); Ok (a_set_baseURI x a)
        else if String.eqb k KeyDescription then do x <- run_assign (as_string_ptr v (a_description a)); Ok (a_set_description x a)
        else if String.eqb k KeyProtocols then do x <- run_assign (as_string_list v (a_protocols a)); Ok (a_set_protocols x a)
        else if String.eqb k KeyMediaType then do x <- read_media v (a_mediaType a); Ok (a_set_mediaType x a)
        else if String.eqb k KeyDocumentation then do x <- read_docs v (a_documentation a); Ok (a_set_documentation x a)
        else if String.eqb k KeySecuredBy then do x <- run_assign (as_string_list v (a_securedBy a)); Ok (a_set_securedBy x a)
        else if String.eqb k KeyUses then do x <- read_strings (a_uses a) v; Ok (a_set_uses x a)
        else if String.eqb k KeySecuritySchemes then do x <- read_untyped (a_securitySchemes a) v; Ok (a_set_securitySchemes x a)
        else if String.eqb k KeyBaseURIParams then do x <- read_untyped (a_baseURIParameters a) v; Ok (a_set_baseURIParameters x a)
        else if String.eqb k KeyTraits then do x <- read_untyped (a_traits a) v; Ok (a_set_traits x a)
        else if String.eqb k KeyAnnotationTypes then do x <- read_untyped (a_annotationTypes a) v; Ok (a_set_annotationTypes x a)
        else if String.eqb k KeyResourceTypes then do x <- read_untyped (a_resourceTypes a) v; Ok (a_set_resourceTypes x a)
        else if String.eqb k KeyTypes || String.eqb k KeySchemas then do x <- read_types (a_types a) v; Ok (a_set_types x a)
        else do s <- to_scalar (fst e); Ok (a_set_extra (kput s (GNode v) (a_extra a)) a)
      end.

  (** APISpec.go:352-354 UnmarshalYAML *)
  Definition api_unmarshal (n : node) (a : api) : res api := map_fold api_assign a n.
End Read.

Section Write.
  Context {F : FloatIO}.

  Definition strings_node (l : list string) : res node := Ok (Seq TSeq (map str_node l)).
  Definition docs_node (l : list doc) : res node := do ns <- map_res doc_node l; Ok (Seq TSeq ns).
  Definition string_map_node (m : amap string string) : res node := map_to_yaml skey_node (fun s => Ok (str_node s)) m.

  (** APISpec.go:305-347, the map that MarshalYAML fills *)
  Definition api_out (a : api) : outm :=
    let o := oput (KStr KeyTitle) (Ok (str_node (a_title a))) [] in
    let o := oput_opt (KStr KeyVersion) (str_opt (a_version a)) o in
    let o := oput_opt (KStr KeyBaseURI) (str_opt (a_baseURI a)) o in
    let o := oput_opt (KStr KeyDescription) (str_opt (a_description a)) o in
    let o := oput_opt (KStr KeyProtocols) (option_map strings_node (a_protocols a)) o in
    let o := oput_opt (KStr KeyMediaType) (option_map strings_node (a_mediaType a)) o in
    let o := oput_opt (KStr KeyDocumentation) (option_map docs_node (a_documentation a)) o in
    let o := oput_opt (KStr KeySecuredBy) (option_map strings_node (a_securedBy a)) o in
    let o := oput_if (nonempty (a_uses a)) (KStr KeyUses) (string_map_node (a_uses a)) o in
    let o := oput_if (nonempty (a_securitySchemes a)) (KStr KeySecuritySchemes) (untyped_to_yaml (a_securitySchemes a)) o in
    let o := oput_if (nonempty (a_baseURIParameters a)) (KStr KeyBaseURIParams) (untyped_to_yaml (a_baseURIParameters a)) o in
    let o := oput_if (nonempty (a_traits a)) (KStr KeyTraits) (untyped_to_yaml (a_traits a)) o in
    let o := oput_if (nonempty (a_annotationTypes a)) (KStr KeyAnnotationTypes) (untyped_to_yaml (a_annotationTypes a)) o in
    let o := oput_if (nonempty (a_resourceTypes a)) (KStr KeyResourceTypes) (untyped_to_yaml (a_resourceTypes a)) o in
    let o := oput_all KStr untyped_to_yaml (ents (a_annotations a)) o in
    let o := oput_all (fun k => k) to_node (ents (a_extra a)) o in
    let o := oput_all KStr to_node (ents (a_resources a)) o in
    oput_if (nonempty (a_types a)) (KStr KeyTypes) (types_to_yaml to_yaml (a_types a)) o.

  (** APISpec.go:349 *)
  Definition api_marshal (a : api) : res node := out_to_yaml (api_out a).
End Write.
