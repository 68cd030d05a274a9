(** Giving other names to the annotations and other paths to the resources of an API. *)
From Verif Require Import Base Num OMap OMapSpec Keys Yaml Values Assign Formats Meta Api Library RenameSpec.

(** An entry of an API document whose key is a string that starts with a parenthesis is an annotation, and with a slash a resource. *)
Definition starts_with (c : ascii) (s : string) : bool := match s with String d _ => Ascii.eqb d c | EmptyString => false end.
Definition free_name (s : string) : bool := starts_with "(" s || starts_with "/" s.

(** Other names: different ones for different names, of annotations for annotations, paths for paths. *)
Definition fair (r : string -> string) : Prop :=
  (forall a b, r a = r b -> a = b) /\ (forall a, starts_with "(" a = true -> starts_with "(" (r a) = true) /\ (forall a, starts_with "/" a = true -> starts_with "/" (r a) = true).
Definition other_name (r : string -> string) (s : string) : string := if free_name s then r s else s.

(** The document, and the object, with other names. *)
Definition rename_top (r : string -> string) (n : node) : node := rename_keys (other_name r) n.
Definition rename_marks (r : string -> string) (a : api) : api :=
  mkApi (a_title a) (a_description a) (a_version a) (a_baseURI a) (a_baseURIParameters a) (a_protocols a) (a_mediaType a) (a_documentation a) (a_types a) (a_traits a) (a_resourceTypes a)
    (a_annotationTypes a) (rename_map (other_name r) (a_annotations a)) (a_securitySchemes a) (a_securedBy a) (a_uses a) (rename_map (other_name r) (a_resources a)) (a_extra a).

(** Libraries have no resources, so only annotations get other names. *)
Definition only_marks (r : string -> string) : Prop := fair r /\ forall s, starts_with "(" s = false -> r s = s.
Definition rename_library_marks (r : string -> string) (l : library) : library :=
  mkLib (rename_map (other_name r) (l_annotations l)) (l_annotationTypes l) (l_extra l) (l_uses l) (l_resourceTypes l) (l_securitySchemes l) (l_traits l) (l_types l) (l_usage l).
