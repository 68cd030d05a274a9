(** Property C87: what is saved is not much larger than what was loaded. *)
From Coq Require Import SpecFloat.
From Verif Require Import Base Num OMap OMapSpec Keys Yaml Values Assign Formats Meta Out Xml Example DataType Marshal Doc Api Library Sizes SizeProofs PropertiesObjects.
Local Open Scope nat_scope.

(** ** C87 *)

Theorem C87_api {F : FloatIO} n a n' : api_unmarshal n new_api = Ok a -> api_marshal a = Ok n' -> nodes n' <= 3 * nodes n.
Proof. exact (api_saved n a n'). Qed.
Print Assumptions C87_api.
Theorem C87_library {F : FloatIO} n l n' : lib_unmarshal n new_library = Ok l -> lib_marshal l = Ok n' -> nodes n' <= 3 * nodes n.
Proof. exact (lib_saved n l n'). Qed.
Print Assumptions C87_library.
Theorem C87_type {F : FloatIO} n d n' : hat n = Ok d -> to_yaml d = Ok n' -> nodes n' <= 3 * nodes n.
Proof. exact (type_saved n d n'). Qed.
Print Assumptions C87_type.

(** No smaller factor p / q does. *)
Theorem C87_best {F : FloatIO} p q : (forall n a n', api_unmarshal n new_api = Ok a -> api_marshal a = Ok n' -> q * nodes n' <= p * nodes n) -> 3 * q <= p.
Proof. intros H. specialize (H (Map TMap []) new_api (Map TMap [(str_node "title", str_node "")]) eq_refl eq_refl). cbn [nodes str_node map list_sum fold_right Nat.add] in H. lia. Qed.
Print Assumptions C87_best.

(** ** Cases *)

Local Notation s_ := str_node.
Local Notation m_ := (Map TMap).
#[local] Existing Instance toy.

(** The factor is reached: a document without entries is saved with a title. *)
Example C87_reached : match api_unmarshal (m_ []) new_api with Ok a => match api_marshal a with Ok n' => nodes n' = 3 * nodes (m_ []) | _ => False end | _ => False end.
Proof. vm_compute. reflexivity. Qed.
(** A type whose example is an empty mapping, with facets and items that are given in full. *)
Definition sized : node :=
  m_ [(s_ "type", s_ "object"); (s_ "facets", m_ [(s_ "f", m_ [(s_ "g", m_ [])])]); (s_ "properties", m_ [(s_ "p", m_ [(s_ "example", m_ [])]); (s_ "q", m_ [(s_ "items", s_ "string")])]); (s_ "(x)", m_ [(s_ "y", s_ "z")])].
Example C87_sized : nodes sized = 23 /\ match hat sized with Ok d => match to_yaml d with Ok n' => nodes n' = 32 | _ => False end | _ => False end.
Proof. vm_compute. split; reflexivity. Qed.
Example C87_in_documents :
  match api_unmarshal (m_ [(s_ "title", s_ "t"); (s_ "types", m_ [(s_ "A", sized)])]) new_api with Ok a => match api_marshal a with Ok n' => nodes n' = 38 | _ => False end | _ => False end /\
  match lib_unmarshal (m_ [(s_ "usage", s_ "t"); (s_ "types", m_ [(s_ "A", sized)])]) new_library with Ok l => match lib_marshal l with Ok n' => nodes n' = 38 | _ => False end | _ => False end.
Proof. vm_compute. split; reflexivity. Qed.
