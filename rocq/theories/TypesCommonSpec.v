(** What the kinds of types have in common. *)
From Coq Require Import SpecFloat.
From Verif Require Import Base Num OMap OMapSpec Keys Yaml Values Assign Out Xml DataType.

(** The keys that only some kinds give a meaning to, or that they read in different ways. *)
Definition own_keys : list string :=
  ["example"; "examples"; "enum"; "uniqueItems"; "minItems"; "maxItems"; "items"; "format"; "fileTypes"; "minLength"; "maxLength"; "minimum"; "maximum"; "multipleOf";
   "pattern"; "properties"; "minProperties"; "maxProperties"; "additionalProperties"; "discriminator"; "discriminatorValue"].

(** An entry of a definition that says nothing of its type and is not of some kinds only. *)
Definition plain (e : node * node) : Prop := ~ In (value (fst e)) ["type"; "schema"] /\ ~ In (value (fst e)) own_keys.

(** A definition with the type [s], under a key [k], among other entries. *)
Definition typed (pre : list (node * node)) (k : node) (s : string) (post : list (node * node)) : node := Map TMap (pre ++ (k, str_node s) :: post).

(** The names of types that have no facets but the unknown ones: nil, and a string that looks like an include. *)
Definition bare (s : string) : bool := String.eqb s "nil" || has_prefix "!include " s.

(** The getters of all the kinds that have facets, and ExtraFacets, which every kind has. *)
Record answers : Type := mkAnswers {
  ans_displayName : option string; ans_description : option string; ans_annotations : amap string untyped; ans_xml : option xml; ans_required : bool;
  ans_facetDefinitions : amap string (amap string dtype) }.
Definition answers_of (d : dtype) : option answers :=
  match d with TBase _ => None | TExt _ x f _ _ => Some (mkAnswers (x_display x) (x_descr x) (x_anns x) (x_xml x) (x_required x) f) end.
Definition extra_facets (d : dtype) : amap gkey gval := match d with TBase b | TExt b _ _ _ _ => b_extra b end.

Definition alike (d d' : dtype) : Prop := answers_of d = answers_of d' /\ extra_facets d = extra_facets d'.

(** Accepted, rejected or crashed alike, and related when accepted. *)
Definition outcomes {A B} (R : A -> B -> Prop) (x : res A) (y : res B) : Prop :=
  match x, y with Ok a, Ok b => R a b | Err, Err => True | Panic, Panic => True | _, _ => False end.
