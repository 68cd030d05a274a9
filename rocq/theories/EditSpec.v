(** Vocabulary of C65: setters whose argument comes back from what it is written as. *)
From Coq Require Import SpecFloat.
From Verif Require Import Base Num OMap OMapSpec Keys Yaml Values Assign Formats Meta Out Xml Example DataType Marshal Doc Api Library
  AssignProofs TypeFacts Fields FacetSpec Segs Same ExRound WriteSpec RoundSpec ApiFields ApiSpec ApiRoundSpec Setters SetterSpec.

(** For types of kind [k]: the kind has the setter; the argument is one of [field_returns] (see C31); a type string has the kind; a map has distinct keys (C01). *)
Definition type_saves {F : FloatIO} (k : dkind) (op : type_op) : Prop :=
  has_setter k op = true /\
  field_returns type_returns k (fst (sets k op)) (snd (sets k op)) /\
  match op with
  | TSetType s => named s k
  | TSetAnnotations (Some m) => NoDup (map fst (ents m))
  | TSetExtraFacets (Some m) => apart (map fst (ents m)) = true
  | _ => True
  end.

Definition annotations_save {F : FloatIO} (m : amap string untyped) : Prop :=
  NoDup (map fst (ents m)) /\ Forall (fun e => starts_paren (fst e) = true /\ ann_returns (snd e)) (ents m).

Definition api_saves {F : FloatIO} (op : api_op) : Prop :=
  match op with
  | ASetDocumentation l => Forall (fun d => d = new_doc) (opt_list l)
  | ASetTypes (Some m) | ASetSchemas (Some m) => section_returns type_returns m
  | ASetTraits (Some m) | ASetResourceTypes (Some m) | ASetAnnotationTypes (Some m) | ASetSecuritySchemes (Some m) => section_returns has_node m
  | ASetAnnotations (Some m) => annotations_save m
  | ASetUses (Some m) => section_returns (fun _ => True) m
  | _ => True
  end.

Definition lib_saves {F : FloatIO} (op : lib_op) : Prop :=
  match op with
  | LSetTypes (Some m) | LSetSchemas (Some m) => section_returns type_returns m
  | LSetTraits (Some m) | LSetResourceTypes (Some m) => section_returns has_node m
  | LSetAnnotations (Some m) => annotations_save m
  | LSetUses (Some m) => section_returns (fun _ => True) m
  | _ => True
  end.

(** The answers of the getter [f] of two types are the same: neither has the getter, or both have and answer the same. *)
Definition same_answer {F : FloatIO} (k : dkind) (v w : option fval) : Prop :=
  match v, w with
  | Some v, Some w => same_fval same_type k v w
  | None, None => True
  | _, _ => False
  end.
