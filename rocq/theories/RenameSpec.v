(** Giving other names to what a document defines. *)
From Coq Require Import SpecFloat.
From Verif Require Import Base Num OMap OMapSpec Keys Yaml Values Assign Formats Meta Out Example DataType Api Library.

(** The sections of a document whose entries are definitions with names that the author chooses. *)
Definition lib_names : list string := ["types"; "schemas"; "traits"; "resourceTypes"; "securitySchemes"; "uses"].
Definition api_names : list string := "annotationTypes"%string :: "baseUriParameters"%string :: lib_names.

(** The section under a key; `schemas` is another name of `types`. *)
Definition section (names : list string) (s : string) : option string :=
  if existsb (String.eqb s) names then Some (if String.eqb s "schemas" then "types"%string else s) else None.

(** A renaming gives each section its own change of names. *)
Definition renaming : Type := string -> string -> string.
Definition one_to_one (R : renaming) : Prop := forall sec a b, R sec a = R sec b -> a = b.

(** The document with other names: in the sections every key that is a string is changed, and nothing else. *)
Definition rename_key (r : string -> string) (k : node) : node := if is_string k then str_node (r (value k)) else k.
Definition rename_keys (r : string -> string) (v : node) : node :=
  match v with Map t l => Map t (map (fun e => (rename_key r (fst e), snd e)) l) | _ => v end.
(** An ordered map is a sequence of mappings, tagged so. *)
Definition rename_names (r : string -> string) (v : node) : node :=
  match v with Seq TOMap l => Seq TOMap (map (rename_keys r) l) | _ => rename_keys r v end.
Definition rename_entry (at_key : node -> option string) (R : renaming) (e : node * node) : node * node :=
  match at_key (fst e) with Some sec => (fst e, rename_names (R sec) (snd e)) | None => e end.
Definition rename_document (at_key : node -> option string) (R : renaming) (n : node) : node :=
  match n with Map t l => Map t (map (rename_entry at_key R) l) | _ => n end.

(** In an API document and in what is saved the sections have keys that are strings; a library does not look whether they are. *)
Definition strict (names : list string) (k : node) : option string := if is_string k then section names (value k) else None.
Definition lax (names : list string) (k : node) : option string := section names (value k).

(** The objects with other names. *)
Definition rename_map {V} (r : string -> string) (m : amap string V) : amap string V := mkMap (map (fun e => (r (fst e), snd e)) (ents m)) (oord m).
Definition rename_api (R : renaming) (a : api) : api :=
  mkApi (a_title a) (a_description a) (a_version a) (a_baseURI a) (rename_map (R "baseUriParameters"%string) (a_baseURIParameters a)) (a_protocols a) (a_mediaType a)
    (a_documentation a) (rename_map (R "types"%string) (a_types a)) (rename_map (R "traits"%string) (a_traits a)) (rename_map (R "resourceTypes"%string) (a_resourceTypes a))
    (rename_map (R "annotationTypes"%string) (a_annotationTypes a)) (a_annotations a) (rename_map (R "securitySchemes"%string) (a_securitySchemes a)) (a_securedBy a)
    (rename_map (R "uses"%string) (a_uses a)) (a_resources a) (a_extra a).

Definition map_result {A B} (f : A -> B) (r : res A) : res B := match r with Ok a => Ok (f a) | Err => Err | Panic => Panic end.
Definition rename_library (R : renaming) (l : library) : library :=
  mkLib (l_annotations l) (l_annotationTypes l) (l_extra l) (rename_map (R "uses"%string) (l_uses l)) (rename_map (R "resourceTypes"%string) (l_resourceTypes l))
    (rename_map (R "securitySchemes"%string) (l_securitySchemes l)) (rename_map (R "traits"%string) (l_traits l)) (rename_map (R "types"%string) (l_types l)) (l_usage l).

(** ** Type definitions

    The sections of a definition of a kind that hold named things: properties in objects only, and nothing in nil and includes. *)
Definition type_names (k : dkind) : list string :=
  match k with
  | TyNil | TyInclude => []
  | TyObject => ["properties"; "facets"; "examples"]
  | _ => ["facets"; "examples"]
  end.
Definition rename_type (R : renaming) (d : dtype) : dtype :=
  match d with
  | TBase b => TBase b
  | TExt b x f c s =>
    TExt b x (rename_map (R "facets"%string) f) (mkCom (c_def c) (c_example c) (rename_map (R "examples"%string) (c_examples c)) (c_enum c))
      (match s with SObject ps mn mx ad di dv => SObject (rename_map (R "properties"%string) ps) mn mx ad di dv | _ => s end)
  end.
