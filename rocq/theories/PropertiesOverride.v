(** Property C96: OverrideType. *)
From Coq Require Import SpecFloat.
From Verif Require Import Base Num OMap OMapSpec Keys Yaml Values Assign Formats Meta Out Xml Example DataType Marshal TypeFacts Fields Override.

(** Some float conversion, for the examples. *)
#[local] Instance toy : FloatIO := {
  float_of := fun _ s => if String.eqb s "0.5" then Some (S754_finite false 1 (-1)) else None;
  float_text := fun _ => (TFloat, "0.5")
}.
Local Notation s_ := str_node.

(** C96.  Getters: [getf f] is the answer of the getter [f], for those the definition has. *)
Theorem C96_getters t d :
  type_of (override_type t d) = t /\ schema_of (override_type t d) = t /\ getf FType (override_type t d) = Some (VStr t) /\
  d_kind (override_type t d) = d_kind d /\ forall f, f <> FType -> getf f (override_type t d) = getf f d.
Proof.
  destruct d as [b|b x fs c s]; (split; [reflexivity|split; [reflexivity|split; [reflexivity|split; [reflexivity|]]]]); intros f N; destruct f; try reflexivity; congruence.
Qed.
Print Assumptions C96_getters.
Example C96_getters_case : type_of (override_type "Dog" (new_type TyNil)) = "Dog" /\ d_kind (override_type "Dog" (new_type TyNil)) = TyNil.
Proof. split; reflexivity. Qed.

(** Saving: [retyped] says that one mapping (or single node) has the one type and the other the other, and all else is the same in the same order. *)
Theorem C96_saved (F : FloatIO) t d : (forall x, fst (float_text x) <> TStr) -> shaped d -> ~ hides_type d ->
  (forall n, to_yaml d = Ok n -> exists n', to_yaml (override_type t d) = Ok n' /\ retyped (type_node (d_kind d) (type_of d)) (type_node (d_kind d) t) n n') /\
  (to_yaml d = Err <-> to_yaml (override_type t d) = Err) /\ (to_yaml d = Panic <-> to_yaml (override_type t d) = Panic).
Proof. intros Fl Hs. exact (saved_override t d Fl (shaped_sorted d Hs)). Qed.
Print Assumptions C96_saved.

(** With an extra facet or an annotation called `type`, nothing of it is saved. *)
Theorem C96_hidden (F : FloatIO) t d : shaped d -> hides_type d -> to_yaml (override_type t d) = to_yaml d.
Proof. intros Hs. exact (saved_hidden t d (shaped_sorted d Hs)). Qed.
Print Assumptions C96_hidden.

Local Notation sized b := (TExt b new_ext anew new_common (SString None 3 (Some 9%Z))).
Definition a_string : dtype := sized (mkBase "string" TyString (mkMap [(KStr "x", GStr "y")] false)).
Definition with_type : dtype := TBase (mkBase "nil" TyNil (mkMap [(KStr "type", GStr "y")] false)).
Example C96_saved_case : shaped a_string /\ ~ hides_type a_string /\
  (exists n, to_yaml a_string = Ok n) /\
  to_yaml (override_type "Name" a_string) = Ok (Map TMap [(s_ "type", s_ "Name"); (s_ "x", s_ "y"); (s_ "minLength", int_node 3); (s_ "maxLength", int_node 9)]) /\
  shaped with_type /\ hides_type with_type /\ to_yaml (override_type "Name" with_type) = Ok (s_ "y").
Proof.
  split; [reflexivity|]. split; [cbn; intros [[X|[]]|[]]; discriminate X|]. split; [eexists; vm_compute; reflexivity|]. split; [vm_compute; reflexivity|].
  split; [reflexivity|]. split; [left; reflexivity|vm_compute; reflexivity].
Qed.

(** Loading what is saved: the name decides the kind, but for includes.  [named] (TypeFacts.v) says which name is one of which kind. *)
Theorem C96_loads (F : FloatIO) t d n d' : (forall x, fst (float_text x) <> TStr) -> shaped d -> ~ hides_type d ->
  to_yaml (override_type t d) = Ok n -> hat n = Ok d' ->
  (d_kind d = TyInclude -> d_kind d' = TyInclude) /\ (d_kind d <> TyInclude -> named t (d_kind d')).
Proof. intros Fl Hs. exact (loads_override t d n d' Fl (shaped_sorted d Hs)). Qed.
Print Assumptions C96_loads.

(** A definition with nothing else set. *)
Theorem C96_plain (F : FloatIO) t k : exists n d', to_yaml (override_type t (new_type k)) = Ok n /\ n = type_node k t /\ hat n = Ok d' /\ type_of d' = t /\ schema_of d' = t.
Proof. exact (plain_override t k). Qed.
Print Assumptions C96_plain.

Example C96_loads_case :
  (exists n d', to_yaml (override_type "string" a_string) = Ok n /\ hat n = Ok d' /\ d_kind d' = TyString) /\
  (exists n d', to_yaml (override_type "a|b" a_string) = Ok n /\ hat n = Ok d' /\ d_kind d' = TyUnion) /\
  (exists n d', to_yaml (override_type "integer" (new_type TyNil)) = Ok n /\ hat n = Ok d' /\ d_kind d' = TyInteger) /\
  (exists n d', to_yaml (override_type "integer" (new_type TyInclude)) = Ok n /\ hat n = Ok d' /\ d_kind d' = TyInclude).
Proof.
  split; [|split; [|split]]; (eexists; eexists; split; [vm_compute; reflexivity|split; [vm_compute; reflexivity|reflexivity]]).
Qed.
