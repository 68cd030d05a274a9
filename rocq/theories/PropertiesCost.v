(** Property C97: the work of loading. *)
From Coq Require Import SpecFloat.
From Verif Require Import Base Num OMap OMapSpec OMapProofs MapFacts Keys Yaml Values Assign Formats Meta Out Xml Example DataType Doc Api Library Sizes SizeProofs Looks PropertiesLooks Cost CostProofs CostFlat CostHigh.
Local Open Scope nat_scope.

(** Some float conversion, for the examples. *)
#[local] Instance toy : FloatIO := {
  float_of := fun _ s => if String.eqb s "0.5" then Some (S754_finite false 1 (-1)) else None;
  float_text := fun _ => (TFloat, "0.5")
}.
Local Notation s_ := str_node.
Local Notation m_ := (Map TMap).

(** C97 as stated: there is a number c such that loading any document as a definition, an API or a library looks no more than c times at
    something per node of the document.  It is false: whatever c is, there is a document, of one mapping with short keys, that all three
    loaders load without an error and that they look at more often. *)
Theorem C97_refuted (F : FloatIO) (c : nat) : exists n,
  (exists d, hat n = Ok d) /\ (exists a, api_unmarshal n new_api = Ok a) /\ (exists l, lib_unmarshal n new_library = Ok l) /\
  c * nodes n < hat_cost n /\ c * nodes n < api_load_cost n new_api /\ c * nodes n < lib_load_cost n new_library.
Proof.
  exists (doubled (4 * c + 2)). destruct (hat_high (4 * c + 2)) as [A1 A2]. destruct (api_high (4 * c + 2) new_api) as [B1 B2]. destruct (lib_high (4 * c + 2) new_library) as [C1 C2].
  rewrite doubled_nodes. split; [exact A2|split; [exact B2|split; [exact C2|]]]. split; [|split]; nia.
Qed.
Print Assumptions C97_refuted.
(** the document is a mapping that has each key twice *)
Example C97_refuted_case : doubled 2 = m_ [(s_ "/", s_ ""); (s_ "/a", s_ ""); (s_ "/", s_ ""); (s_ "/a", s_ "")] /\ map (fun k => (nodes (doubled k), api_load_cost (doubled k) new_api)) [2; 20; 40] = [(9, 8); (81, 440); (161, 1680)].
Proof. split; vm_compute; reflexivity. Qed.

(** What is left of it.  No document takes more than about the square of its nodes. *)
Theorem C97_square_partial (F : FloatIO) (n : node) :
  hat_cost n <= nodes n * (nodes n + 3) /\ api_load_cost n new_api <= nodes n * (nodes n + 3) /\ lib_load_cost n new_library <= nodes n * (nodes n + 3).
Proof.
  replace (nodes n + 3) with (nodes n + 0 + 3) by lia. split; [apply hat_bound|split; [apply api_fee|apply lib_fee]].
  - repeat split; apply small_nil.
  - repeat split; apply small_nil.
Qed.
Print Assumptions C97_square_partial.
Example C97_square_case : api_load_cost (m_ [(s_ "types", m_ [(s_ "A", m_ [(s_ "type", s_ "string"); (s_ "x", s_ "1"); (s_ "x", s_ "2")])])]) new_api = 9.
Proof. vm_compute. reflexivity. Qed.

(** A document in which no mapping has a key twice (and all keys are strings) takes at most two looks per node: as a definition; as an API,
    if it does not have both `types` and `schemas`; as a library, if besides it does not have both `annotationTypes` and entries in parentheses. *)
Theorem C97_tidy_partial (F : FloatIO) (n : node) : tidy n -> hat_cost n <= 2 * nodes n.
Proof. apply hat_flat. Qed.
Print Assumptions C97_tidy_partial.
Definition has_key (k : string) (l : list (node * node)) : Prop := exists e, In e l /\ value (fst e) = k.
Definition has_paren (l : list (node * node)) : Prop := exists e s, In e l /\ value (fst e) = String "(" s.
Lemma section_nodup l : NoDup (map text l) -> ~ (has_key KeyTypes l /\ has_key KeySchemas l) -> NoDup (map section l).
Proof.
  induction l as [|e l IH]; intros N B; [constructor|]. cbn [map] in *. inversion N as [|x y N1 N2]; subst. constructor.
  - intros I. apply in_map_iff in I as [e' [E I]]. unfold section in E. destruct (String.eqb (text e') KeySchemas) eqn:E1, (String.eqb (text e) KeySchemas) eqn:E2.
    + apply String.eqb_eq in E1, E2. apply N1. rewrite E2, <- E1. apply in_map. exact I.
    + apply String.eqb_eq in E1. apply B. split; [exists e; split; [left; reflexivity|symmetry; exact E]|exists e'; split; [right; exact I|exact E1]].
    + apply String.eqb_eq in E2. apply B. split; [exists e'; split; [right; exact I|exact E]|exists e; split; [left; reflexivity|exact E2]].
    + apply N1. rewrite <- E. apply in_map. exact I.
  - apply IH; [exact N2|]. intros [[e1 [I1 E1]] [e2 [I2 E2]]]. apply B. split; [exists e1|exists e2]; (split; [right; assumption|assumption]).
Qed.
Theorem C97_api_partial (F : FloatIO) t l : tidy (Map t l) -> ~ (has_key KeyTypes l /\ has_key KeySchemas l) -> api_load_cost (Map t l) new_api <= 2 * nodes (Map t l).
Proof. intros T B. apply api_flat; [exact T|]. apply section_nodup; [|exact B]. inversion T; assumption. Qed.
Print Assumptions C97_api_partial.
Theorem C97_library_partial (F : FloatIO) t l : tidy (Map t l) -> ~ (has_key KeyTypes l /\ has_key KeySchemas l) -> ~ (has_key KeyAnnotationTypes l /\ has_paren l) ->
  lib_load_cost (Map t l) new_library <= 2 * nodes (Map t l).
Proof.
  intros T B O. apply (lib_flat (existsb paren l)); [exact T|apply section_nodup; [|exact B]; inversion T; assumption|]. intros e I. unfold one_source. destruct (existsb paren l) eqn:P.
  - intros E. apply O. split; [exists e; split; [exact I|exact E]|]. apply existsb_exists in P as [e' [I' P]]. unfold paren, text in P. destruct (value (fst e')) as [|c s] eqn:K; [discriminate P|].
    apply Ascii.eqb_eq in P. subst. exists e', s. split; assumption.
  - destruct (paren e) eqn:Pe; [|reflexivity]. assert (X : existsb paren l = true) by (apply existsb_exists; exists e; split; assumption). congruence.
Qed.
Print Assumptions C97_library_partial.
Lemma tidy_words l : NoDup (map fst l) -> tidy (m_ (map (fun p => (s_ (fst p), s_ (snd p))) l)).
Proof.
  intros N. constructor; [intros e I; apply in_map_iff in I as [p [<- _]]; split; [reflexivity|constructor]|]. rewrite map_map. exact N.
Qed.
Example C97_tidy_case : tidy (m_ [(s_ "type", s_ "string"); (s_ "pattern", s_ "a")]) /\ hat_cost (m_ [(s_ "type", s_ "string"); (s_ "pattern", s_ "a")]) = 4.
Proof. split; [apply (tidy_words [("type", "string"); ("pattern", "a")]%string)|vm_compute; reflexivity]. repeat constructor; cbn; intuition discriminate. Qed.
(** the conditions are needed: a library that has annotations in both places *)
Example C97_library_case : let l := [(s_ "annotationTypes", m_ [(s_ "(a)", m_ []); (s_ "(b)", m_ [])]); (s_ "(a)", m_ []); (s_ "(b)", m_ [])] in
  lib_load_cost (m_ l) new_library = 9 /\ lib_load_cost (m_ (tl l)) new_library = 2.
Proof. split; vm_compute; reflexivity. Qed.

(** What a look at a map is.  [put_cost] is the number of entries that Put looks at (C94), for every map that a history of calls leads to. *)
Theorem C97_put (V : Type) (k : string) (v : V) (m : omap string V) : sm_reachable m ->
  List.length (fst (step_t string V String.eqb any_hash m (OPut k v))) = put_cost String.eqb k (view m).
Proof. intros R. rewrite (C94_strings V m _ R), entries_ordered. unfold looked_at, all_if, put_cost, view. cbn [ents]. destruct (shas _ _ _); [apply seq_length|reflexivity]. Qed.
Print Assumptions C97_put.
Theorem C97_put_any (V : Type) (k : gkey) (v : V) (m : omap gkey V) : am_reachable m -> gkey_proper k = true ->
  List.length (fst (step_t gkey V gkey_eqb gkey_hashable m (OPut k v))) = put_cost gkey_eqb k (view m).
Proof.
  intros R P. rewrite (C94_any V m _ R); [|repeat constructor; exact P]. rewrite entries_ordered. unfold looked_at, all_if, put_cost, view. cbn [ents]. destruct (shas _ _ _); [apply seq_length|reflexivity].
Qed.
Print Assumptions C97_put_any.
Example C97_put_case : put_cost String.eqb "b" (mkMap [("a", 1); ("b", 2); ("c", 3)]%string true) = 3 /\ put_cost String.eqb "d" (mkMap [("a", 1); ("b", 2); ("c", 3)]%string true) = 0.
Proof. split; reflexivity. Qed.
