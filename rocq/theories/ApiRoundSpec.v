(** Vocabulary of C43, C50, C52 and C54: when two API documents or libraries are the same, and which come back from what they are written as. *)
From Coq Require Import SpecFloat.
From Verif Require Import Base Num OMap OMapSpec Keys Yaml Values Assign Formats Meta Out Xml Example DataType Marshal Doc Api Library
  AssignProofs TypeFacts Fields FacetSpec Segs Same ExRound WriteSpec RoundSpec ApiFields ApiSpec.

Definition starts_slash (s : string) : bool := match s with String c _ => Ascii.eqb c "/" | EmptyString => false end.

(** ** The same *)

(** The same answers from every getter.  An empty list of documentation entries and none count as the same. *)
Definition same_afield {F : FloatIO} (f : afield) : aty f -> aty f -> Prop :=
  match f with
  | ATitle | AVersion | ABaseURI | ADescription | AProtocols | ASecuredBy | AMediaType => fun v w => v = w
  | ADocumentation => fun v w => opt_list v = opt_list w
  | AUses => fun v w => same_map eq v w
  | ASecuritySchemes | ABaseURIParameters | ATraits | AAnnotationTypes | AResourceTypes | AResources => fun v w => same_map same_value v w
  | AAnnotations => fun v w => same_map (same_map same_value) v w
  | AExtra => fun v w => same_map same_value v w
  | ATypes => fun v w => same_map same_type v w
  end.
Definition same_api {F : FloatIO} (a b : api) : Prop := forall f, same_afield f (aget f a) (aget f b).

Definition same_lfield {F : FloatIO} (f : lfield) : lty f -> lty f -> Prop :=
  match f with
  | LUsage => fun v w => v = w
  | LUses => fun v w => same_map eq v w
  | LSecuritySchemes | LTraits | LAnnotationTypes | LResourceTypes => fun v w => same_map same_value v w
  | LAnnotations => fun v w => same_map (same_map same_value) v w
  | LExtra => fun v w => same_map same_value v w
  | LTypes => fun v w => same_map same_type v w
  end.
Definition same_library {F : FloatIO} (a b : library) : Prop := forall f, same_lfield f (lget f a) (lget f b).

(** ** What comes back *)

(** A section: written as a mapping (not as an ordered list of pairs), with distinct keys, and [P] holds of the values. *)
Definition section_returns {V} (P : V -> Prop) (m : amap string V) : Prop :=
  (ents m <> [] -> oord m = false) /\ NoDup (map fst (ents m)) /\ Forall (fun e => P (snd e)) (ents m).

Definition has_node {F : FloatIO} (v : gval) : Prop := exists n, to_node v = Ok n.

Definition extras_return {F : FloatIO} (bad : string -> Prop) (m : amap gkey gval) : Prop :=
  Forall (fun e => key_returns (fst e) /\ has_node (snd e) /\ forall s, fst e = KStr s -> ~ bad s) (ents m).

Definition api_returns {F : FloatIO} (a : api) : Prop :=
  api_tidy a /\
  Forall (fun d => d = new_doc) (opt_list (a_documentation a)) /\
  section_returns (fun _ => True) (a_uses a) /\
  section_returns has_node (a_securitySchemes a) /\ section_returns has_node (a_baseURIParameters a) /\ section_returns has_node (a_traits a) /\
  section_returns has_node (a_annotationTypes a) /\ section_returns has_node (a_resourceTypes a) /\
  section_returns type_returns (a_types a) /\
  Forall (fun e => starts_paren (fst e) = true /\ ann_returns (snd e)) (ents (a_annotations a)) /\
  Forall (fun e => starts_slash (fst e) = true /\ has_node (snd e)) (ents (a_resources a)) /\
  extras_return (fun s => s = "" \/ starts_paren s = true \/ starts_slash s = true \/ In s api_names) (a_extra a).

Definition lib_returns {F : FloatIO} (l : library) : Prop :=
  lib_tidy l /\
  section_returns (fun _ => True) (l_uses l) /\
  section_returns has_node (l_securitySchemes l) /\ section_returns has_node (l_traits l) /\ section_returns has_node (l_resourceTypes l) /\
  ents (l_annotationTypes l) = [] /\
  section_returns type_returns (l_types l) /\
  Forall (fun e => starts_paren (fst e) = true /\ ann_returns (snd e)) (ents (l_annotations l)) /\
  extras_return (fun s => s = "" \/ starts_paren s = true) (l_extra l) /\
  Forall (fun e => forall n, key_node (fst e) = Ok n -> ~ In (value n) lib_names) (ents (l_extra l)).
