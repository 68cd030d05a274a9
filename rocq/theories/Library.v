(** v0/internal/raml/Library.go, pkg/raml/rparse/parse-lib.go *)
From Coq Require Import SpecFloat.
From Verif Require Import Base Num OMap OMapSpec Keys Yaml Values Assign Formats Meta Out Xml Example DataType Marshal Doc Api.

(** Library.go:26-36 *)
Record library : Type := mkLib {
  l_annotations : amap string untyped;
  l_annotationTypes : untyped;
  l_extra : amap gkey gval;
  l_uses : amap string string;
  l_resourceTypes : untyped;
  l_securitySchemes : untyped;
  l_traits : untyped;
  l_types : amap string dtype;
  l_usage : option string
}.

(** Assignments to the fields. *)
Definition l_set_annotations (v : amap string untyped) (l : library) : library :=
  mkLib v (l_annotationTypes l) (l_extra l) (l_uses l) (l_resourceTypes l) (l_securitySchemes l) (l_traits l) (l_types l) (l_usage l).
Definition l_set_annotationTypes (v : untyped) (l : library) : library :=
  mkLib (l_annotations l) v (l_extra l) (l_uses l) (l_resourceTypes l) (l_securitySchemes l) (l_traits l) (l_types l) (l_usage l).
Definition l_set_extra (v : amap gkey gval) (l : library) : library :=
  mkLib (l_annotations l) (l_annotationTypes l) v (l_uses l) (l_resourceTypes l) (l_securitySchemes l) (l_traits l) (l_types l) (l_usage l).
Definition l_set_uses (v : amap string string) (l : library) : library :=
  mkLib (l_annotations l) (l_annotationTypes l) (l_extra l) v (l_resourceTypes l) (l_securitySchemes l) (l_traits l) (l_types l) (l_usage l).
Definition l_set_resourceTypes (v : untyped) (l : library) : library :=
  mkLib (l_annotations l) (l_annotationTypes l) (l_extra l) (l_uses l) v (l_securitySchemes l) (l_traits l) (l_types l) (l_usage l).
Definition l_set_securitySchemes (v : untyped) (l : library) : library :=
  mkLib (l_annotations l) (l_annotationTypes l) (l_extra l) (l_uses l) (l_resourceTypes l) v (l_traits l) (l_types l) (l_usage l).
Definition l_set_traits (v : untyped) (l : library) : library :=
  mkLib (l_annotations l) (l_annotationTypes l) (l_extra l) (l_uses l) (l_resourceTypes l) (l_securitySchemes l) v (l_types l) (l_usage l).
Definition l_set_types (v : amap string dtype) (l : library) : library :=
  mkLib (l_annotations l) (l_annotationTypes l) (l_extra l) (l_uses l) (l_resourceTypes l) (l_securitySchemes l) (l_traits l) v (l_usage l).
Definition l_set_usage (v : option string) (l : library) : library :=
  mkLib (l_annotations l) (l_annotationTypes l) (l_extra l) (l_uses l) (l_resourceTypes l) (l_securitySchemes l) (l_traits l) (l_types l) v.

(** Library.go:13-24 NewLibrary *)
Definition new_library : library :=
  mkLib anew_unordered anew_unordered anew_unordered anew_unordered anew_unordered anew_unordered anew_unordered anew_unordered None.

Section Library.
  Context {F : FloatIO}.

  (** util-ann-map.go:11-27 UnmarshalAnnotationMapRAML *)
  Definition read_annotations (m : amap string untyped) (n : node) : res (amap string untyped) := read_amap read_annotation m n.

  (** Library.go:212-246 assign.  `annotationTypes` goes to the annotations.  The index `k.Value[0]` panics on the empty key. *)
  Definition lib_assign (l : library) (e : node * node) : res library :=
    let k := value (fst e) in
    let v := snd e in
    if String.eqb k KeyAnnotationTypes then do x <- read_annotations (l_annotations l) v; Ok (l_set_annotations x l)
    else if String.eqb k KeyResourceTypes then do x <- read_untyped (l_resourceTypes l) v; Ok (l_set_resourceTypes x l)
    else if String.eqb k KeyTypes || String.eqb k KeySchemas then do x <- read_types (l_types l) v; Ok (l_set_types x l)
    else if String.eqb k KeyTraits then do x <- read_untyped (l_traits l) v; Ok (l_set_traits x l)
    else if String.eqb k KeyUses then do x <- read_strings (l_uses l) v; Ok (l_set_uses x l)
    else if String.eqb k KeyUsage then do x <- run_assign (as_string_ptr v (l_usage l)); Ok (l_set_usage x l)
    else if String.eqb k KeySecuritySchemes then do x <- read_untyped (l_securitySchemes l) v; Ok (l_set_securitySchemes x l)
    else
      let other := do s <- to_scalar (fst e); Ok (l_set_extra (kput s (GNode v) (l_extra l)) l) in
      if is_string (fst e) then
        match k with
        | EmptyString => Panic
        | String c _ =>
          if Ascii.eqb c "(" then do m <- read_annotation v; Ok (l_set_annotations (mput k m (l_annotations l)) l) else other
        end
      else other.

  (** Library.go:170-172 UnmarshalYAML *)
  Definition lib_unmarshal (n : node) (l : library) : res library := map_fold lib_assign l n.

  (** Library.go:174-210, the map that MarshalYAML returns; the encoder calls its MarshalYAML, which is ToYAML (AnyMap.go:114-116). *)
  Definition lib_out (l : library) : outm :=
    let o := oput_opt (KStr KeyUsage) (str_opt (l_usage l)) [] in
    let o := oput_if (nonempty (l_uses l)) (KStr KeyUses) (string_map_node (l_uses l)) o in
    let o := oput_if (nonempty (l_securitySchemes l)) (KStr KeySecuritySchemes) (untyped_to_yaml (l_securitySchemes l)) o in
    let o := oput_if (nonempty (l_traits l)) (KStr KeyTraits) (untyped_to_yaml (l_traits l)) o in
    let o := oput_if (nonempty (l_annotationTypes l)) (KStr KeyAnnotationTypes) (untyped_to_yaml (l_annotationTypes l)) o in
    let o := oput_all KStr untyped_to_yaml (ents (l_annotations l)) o in
    let o := oput_if (nonempty (l_resourceTypes l)) (KStr KeyResourceTypes) (untyped_to_yaml (l_resourceTypes l)) o in
    let o := oput_all (fun k => k) to_node (ents (l_extra l)) o in
    oput_if (nonempty (l_types l)) (KStr KeyTypes) (types_to_yaml to_yaml (l_types l)) o.

  Definition lib_marshal (l : library) : res node := out_to_yaml (lib_out l).
End Library.
