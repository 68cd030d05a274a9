(** What API documents and libraries have in common. *)
From Coq Require Import SpecFloat.
From Verif Require Import Base Num OMap OMapSpec Keys Yaml Values Assign Out Doc DataType Marshal Api Library.

(** The keys that only an API document gives a meaning to, and those of libraries. *)
Definition api_only : list string :=
  ["title"; "version"; "baseUri"; "description"; "protocols"; "mediaType"; "documentation"; "securedBy"; "baseUriParameters"].
Definition lib_only : list string := ["usage"].
Definition both : list string := ["annotationTypes"; "resourceTypes"; "types"; "schemas"; "traits"; "uses"; "securitySchemes"].

Definition is_resource (s : string) : bool := match s with String c _ => Ascii.eqb c "/" | EmptyString => false end.
Definition is_annotation (s : string) : bool := match s with String c _ => Ascii.eqb c "(" | EmptyString => false end.

(** An entry both kinds of document may have: a section of both, an annotation, or something neither knows. *)
Definition common (e : node * node) : Prop :=
  if is_string (fst e) then ~ In (value (fst e)) api_only /\ ~ In (value (fst e)) lib_only /\ is_resource (value (fst e)) = false
  else ~ In (value (fst e)) both /\ ~ In (value (fst e)) lib_only.

(** The getters that both have answer the same. *)
Definition same_but_annotation_types (a : api) (l : library) : Prop :=
  a_types a = l_types l /\ a_traits a = l_traits l /\ a_resourceTypes a = l_resourceTypes l /\ a_securitySchemes a = l_securitySchemes l /\
  a_uses a = l_uses l /\ a_annotations a = l_annotations l /\ a_extra a = l_extra l.
Definition same (a : api) (l : library) : Prop := same_but_annotation_types a l /\ a_annotationTypes a = l_annotationTypes l.

(** Accepted, rejected or crashed alike, and related when accepted. *)
Definition outcomes {A B} (R : A -> B -> Prop) (x : res A) (y : res B) : Prop :=
  match x, y with Ok a, Ok b => R a b | Err, Err => True | Panic, Panic => True | _, _ => False end.
