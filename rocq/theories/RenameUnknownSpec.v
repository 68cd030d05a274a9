(** Giving other names to the unknown entries of an API document. *)
From Verif Require Import Base Num OMap OMapSpec Keys Yaml Values Assign Formats Meta Example DataType Api RenameSpec RenameTopSpec RenameFreeSpec.

(** The keys of the settings of an API. *)
Definition settings : list string :=
  ["title"; "version"; "baseUri"; "description"; "protocols"; "mediaType"; "documentation"; "securedBy"; "uses"; "securitySchemes"; "baseUriParameters"; "traits"; "annotationTypes";
   "resourceTypes"; "types"; "schemas"]%string.
Definition unknown (s : string) : bool := negb (existsb (String.eqb s) (""%string :: settings)) && negb (free_name s).

(** Other names: different ones for different entries, unknown too. *)
Definition fair_unknown (r : string -> string) : Prop := (forall a b, r a = r b -> a = b) /\ forall s, unknown s = true -> unknown (r s) = true.
Definition unknown_other (r : string -> string) (s : string) : string := if unknown s then r s else s.
Definition rename_unknown (r : string -> string) (n : node) : node := rename_keys (unknown_other r) n.
Definition rename_api_extra (r : string -> string) (a : api) : api :=
  mkApi (a_title a) (a_description a) (a_version a) (a_baseURI a) (a_baseURIParameters a) (a_protocols a) (a_mediaType a) (a_documentation a) (a_types a) (a_traits a) (a_resourceTypes a)
    (a_annotationTypes a) (a_annotations a) (a_securitySchemes a) (a_securedBy a) (a_uses a) (a_resources a) (rename_extra (unknown_other r) (a_extra a)).
