(** Properties C33, C34, C35 and the second half of C27. *)
From Coq Require Import SpecFloat Permutation.
From Verif Require Import Base Num OMap OMapSpec Keys Yaml Values Assign Formats Meta Out Xml Example DataType Marshal
  AssignProofs TypeFacts Fields FieldProofs FacetSpec FacetProofs DocProofs TypeWrite OrderProofs PathProofs Lens Segs ExProofs
  InsertProofs Same ExRound TypeSegs WriteSpec WriteProofs ReadInv.

(** Some float conversion, for the examples. *)
#[local] Instance toy : FloatIO := {
  float_of := fun _ s => if String.eqb s "0.5" then Some (S754_finite false 1 (-1)) else None;
  float_text := fun _ => (TFloat, "0.5")
}.

Local Notation s_ := str_node.

(** What holds of the second half of C27: after SetDefault(v) on a type that was read from a document without the key `default`, the
    written mapping begins with `default` and v.  Missing: documents with `default` (C27_default_refuted). *)
Theorem C27_default_partial (F : FloatIO) n d v n' :
  (forall t l, n = Map t l -> plain_keys l /\ ~ mentions "default" l) ->
  hat n = Ok d -> d_kind d <> TyNil -> d_kind d <> TyInclude ->
  to_yaml (setf FDefault (VOptVal (Some v)) d) = Ok n' ->
  exists m l, to_node v = Ok m /\ n' = Map TMap ((s_ "default", m) :: l).
Proof. exact (set_default_written n d v n'). Qed.
Print Assumptions C27_default_partial.
Example C27_case_set :
  match hat (Map TMap [(s_ "type", s_ "integer"); (s_ "minimum", int_node 3)]) with
  | Ok d => to_yaml (setf FDefault (VOptVal (Some (GInt 9))) d) =
            Ok (Map TMap [(s_ "default", int_node 9); (s_ "type", s_ "integer"); (s_ "minimum", int_node 3)])
  | _ => False
  end.
Proof. reflexivity. Qed.

(** Without the restriction of C33 and C34: an extra facet named `type` replaces the type, even in the short form. *)
Theorem C33_extra_named_type_refuted (F : FloatIO) :
  exists d, only_type (setf FExtra (VExtra (mkMap [] true)) d) /\ d_type d = "string" /\
            d_extra d = mkMap [(KStr "type", GStr "integer")] true /\ to_yaml d = Ok (s_ "integer").
Proof.
  exists (setf FExtra (VExtra (mkMap [(KStr "type", GStr "integer")] true)) (new_type TyString)).
  split; [|repeat split].
  intros f v N G. destruct f; cbn in G; try discriminate G; injection G as <-; try reflexivity; congruence.
Qed.
Print Assumptions C33_extra_named_type_refuted.

(** What holds of C33: it does for definitions in which no extra facet and no annotation takes the key of a facet or of each other. *)
Theorem C33_short_form_partial (F : FloatIO) d : tidy d ->
  (only_type d -> to_yaml d = Ok (match d_kind d with TyInclude => Scal TInclude (d_type d) | _ => Scal TStr (d_type d) end)) /\
  (~ only_type d -> forall n, to_yaml d = Ok n -> exists l, n = Map TMap l).
Proof. exact (written_form d). Qed.
Print Assumptions C33_short_form_partial.
(** The restriction holds of everything that was read from a mapping whose non-string keys do not begin with a parenthesis, and from
    every scalar. *)
Theorem C33_C34_read_types_tidy (F : FloatIO) n d :
  (forall t l, n = Map t l -> plain_keys l) -> hat n = Ok d -> tidy d.
Proof. exact (read_tidy n d). Qed.
Print Assumptions C33_C34_read_types_tidy.
Example C33_case :
  match hat (Map TMap [(s_ "type", s_ "string"); (s_ "required", bool_node true)]),
        hat (Map TMap [(s_ "type", s_ "string"); (s_ "required", bool_node false)]) with
  | Ok d, Ok d' => to_yaml d = Ok (s_ "string") /\ (only_type d) /\
                   to_yaml d' = Ok (Map TMap [(s_ "type", s_ "string"); (s_ "required", bool_node false)]) /\ ~ only_type d'
  | _, _ => False
  end.
Proof.
  split; [reflexivity|]. split.
  - intros f v N G. destruct f; cbn in G; try discriminate G; injection G as <-; try reflexivity; congruence.
  - split; [reflexivity|]. intros H. discriminate (H FRequired (VBool false) ltac:(discriminate) eq_refl).
Qed.

(** C34 is false too of a built definition: an extra facet named `type` takes the place and the value of the type. *)
Theorem C34_facet_order_refuted (F : FloatIO) :
  exists d, d_type d = "string" /\ getf FPattern d = Some (VOptStr (Some "p")) /\
    d_extra d = mkMap [(KStr "pattern", GStr "q"); (KStr "type", GStr "integer")] true /\
    exists l, to_yaml d = Ok (Map TMap l) /\ ~ In (s_ "type", s_ "string") l.
Proof.
  exists (setf FPattern (VOptStr (Some "p")) (setf FExtra (VExtra (mkMap [(KStr "pattern", GStr "q"); (KStr "type", GStr "integer")] true)) (new_type TyString))).
  split; [reflexivity|]. split; [reflexivity|]. split; [reflexivity|]. eexists. split; [reflexivity|]. cbn. intuition discriminate.
Qed.
Print Assumptions C34_facet_order_refuted.

(** What holds of C34, under the same restriction. *)
Theorem C34_facet_order_partial (F : FloatIO) d l : tidy d -> to_yaml d = Ok (Map TMap l) ->
  Forall2 (fun k p => key_node k = Ok (fst p)) (flat_map (field_keys d) (write_order (d_kind d))) l /\
  apart (flat_map (field_keys d) (write_order (d_kind d))) = true.
Proof. exact (written_order d l). Qed.
Print Assumptions C34_facet_order_partial.
Example C34_case :
  match hat (Map TMap [(s_ "maxItems", int_node 5); (s_ "foo", s_ "x"); (s_ "minItems", int_node 0); (s_ "displayName", s_ "D");
                       (s_ "description", s_ "E"); (s_ "type", s_ "array"); (s_ "uniqueItems", bool_node true)]) with
  | Ok d => tidy d /\
            to_yaml d = Ok (Map TMap [(s_ "displayName", s_ "D"); (s_ "description", s_ "E"); (s_ "type", s_ "array"); (s_ "foo", s_ "x");
                                      (s_ "uniqueItems", bool_node true); (s_ "maxItems", int_node 5)])
  | _ => False
  end.
Proof.
  cbn. split; [|reflexivity].
  apply (read_tidy (Map TMap [(s_ "maxItems", int_node 5); (s_ "foo", s_ "x"); (s_ "minItems", int_node 0); (s_ "displayName", s_ "D");
                       (s_ "description", s_ "E"); (s_ "type", s_ "array"); (s_ "uniqueItems", bool_node true)])); [|reflexivity].
  intros t l E e He. injection E as <- <-. cbn in He. repeat destruct He as [<-|He]; try discriminate; destruct He.
Qed.

(** C35 is false: SetType on a built-in type, and on a union, changes the kind that is read back. *)
Theorem C35_kind_survives_refuted (F : FloatIO) :
  (exists d d', d = setf FType (VStr "MyString") (new_type TyString) /\ d_kind d = TyString /\
     (exists n, to_yaml d = Ok n /\ hat n = Ok d') /\ d_kind d' = TyCustom) /\
  (exists d d', d = setf FType (VStr "Cat") (new_type TyUnion) /\ d_kind d = TyUnion /\
     (exists n, to_yaml d = Ok n /\ hat n = Ok d') /\ d_kind d' = TyCustom).
Proof.
  split; (eexists; eexists; split; [reflexivity|]; split; [reflexivity|]; split; [eexists; split; [reflexivity|reflexivity]|reflexivity]).
Qed.
Print Assumptions C35_kind_survives_refuted.
(** What holds of C35: the kind read back is the one of the type string (C21), so it is kept exactly when the type string has the
    kind; in particular for every SetType argument that names a type of the same kind. *)
Theorem C35_kind_survives_partial (F : FloatIO) d n d' s : tidy d -> d_type d = s -> d_kind d <> TyInclude ->
  to_yaml d = Ok n -> hat n = Ok d' -> (d_kind d' = d_kind d <-> named s (d_kind d)).
Proof.
  intros Ht <- Hk H H'. rewrite (kind_after d n d' Ht H H'), named_kind_of. destruct (d_kind d); congruence || reflexivity.
Qed.
Print Assumptions C35_kind_survives_partial.
Example C35_case :
  match hat (Map TMap [(s_ "type", s_ "Cat | Dog"); (s_ "description", s_ "E")]) with
  | Ok d => exists n d', to_yaml (setf FType (VStr "Cat | Bird") d) = Ok n /\ hat n = Ok d' /\ d_kind d' = TyUnion /\ d_type d' = "Cat | Bird"
  | _ => False
  end.
Proof. cbn. eexists; eexists. split; [reflexivity|]. split; [reflexivity|]. split; reflexivity. Qed.
