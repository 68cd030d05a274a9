(** Properties C36, C37, C38, C58 (types and examples), C59 (types), C60. *)
From Coq Require Import SpecFloat Permutation.
From Verif Require Import Base Num OMap OMapSpec Keys Yaml Values Assign Formats Meta Out Xml Example DataType Marshal
  AssignProofs TypeFacts Fields FieldProofs FacetSpec FacetProofs DocProofs TypeWrite OrderProofs PathProofs Lens Segs ExProofs
  InsertProofs Same ExRound.

(** Some float conversion, for the examples. *)
#[local] Instance toy : FloatIO := {
  float_of := fun _ s => if String.eqb s "0.5" then Some (S754_finite false 1 (-1)) else None;
  float_text := fun _ => (TFloat, "0.5")
}.

Local Notation s_ := str_node.

(** C36 is false: no definition of kind `any` with an example is readable. *)
Theorem C36_example_accepted_refuted (F : FloatIO) :
  (forall t l d, t <> TStr -> mentions "example" l -> hat (Map t l) = Ok d -> d_kind d <> TyAny) /\
  (exists d, hat (Map TMap [(s_ "type", s_ "any")]) = Ok d /\ d_kind d = TyAny) /\
  hat (Map TMap [(s_ "type", s_ "any"); (s_ "example", s_ "x")]) = Err.
Proof.
  split; [exact any_example_rejected|]. split; [eexists; split; reflexivity|reflexivity].
Qed.
Print Assumptions C36_example_accepted_refuted.
(** What holds of C36: adding an example whose value fits, at any place, to a readable definition of any other kind gives a readable
    definition; Example() has the value and nothing else changes.  Missing: kind any; values that are mappings (see C37). *)
Theorem C36_example_accepted_partial (F : FloatIO) t pre key val post d v :
  t <> TStr -> hat (Map t (pre ++ post)) = Ok d ->
  value key = "example" -> ~ mentions "example" (pre ++ post) ->
  d_kind d <> TyAny -> is_map val = false -> example_value (d_kind d) val v ->
  exists e, hat (Map t (pre ++ (key, val) :: post)) = Ok (setf FExample (VEx (Some e)) d) /\ ex_value e = Some v /\
            getf FExample (setf FExample (VEx (Some e)) d) = Some (VEx (Some e)).
Proof. exact (example_accepted t pre key val post d v). Qed.
Print Assumptions C36_example_accepted_partial.
Example C36_case :
  (exists d, hat (Map TMap ([(s_ "type", s_ "integer")] ++ [(s_ "minimum", int_node 3)])) = Ok d /\
     d_kind d <> TyAny /\ example_value (d_kind d) (int_node 7) (GInt 7)) /\
  ~ mentions "example" ([(s_ "type", s_ "integer")] ++ [(s_ "minimum", int_node 3)]).
Proof.
  split.
  - eexists. split; [reflexivity|]. split; [discriminate|]. exists 7%Z. split; [|reflexivity].
    apply denotes_int_iff. reflexivity.
  - intros [e [[<-|[<-|[]]] E]]; discriminate.
Qed.

(** C37 is false: the example of an object, given directly as a mapping, is taken for an expanded example. *)
Theorem C37_example_forms_refuted (F : FloatIO) :
  exists e, read_ex TyObject (Map TMap [(s_ "name", s_ "Bob")]) = Ok e /\
            ex_value e = None /\ ex_extra e = mkMap [(KStr "name", GNode (s_ "Bob"))] false.
Proof. eexists; repeat split. Qed.
Print Assumptions C37_example_forms_refuted.
(** What holds of C37: a direct example that is not a mapping gives its value; a mapping is always an expanded example, readable
    exactly when all its pairs are acceptable, and every getter answers what the mapping says. *)
Theorem C37_example_forms_partial (F : FloatIO) kd :
  (forall n e, is_map n = false ->
     (read_ex kd n = Ok e <-> exists v, example_value kd n v /\ e = mkEx None None (mkMap [] false) (Some v) true (mkMap [] false))) /\
  (forall t l e, read_ex kd (Map t l) = Ok e <-> Forall (ex_acceptable kd) l /\ expanded_example kd l e).
Proof. exact (conj (ex_direct kd) (ex_expanded_iff kd)). Qed.
Print Assumptions C37_example_forms_partial.
Example C37_case : exists e,
  read_ex TyBool (Map TMap [(s_ "value", bool_node true); (s_ "strict", bool_node false); (int_node 3, s_ "x");
                            (s_ "(a)", Map TMap [(s_ "b", s_ "c")]); (s_ "displayName", s_ "D")]) = Ok e /\
  e = mkEx (Some "D") None (mkMap [("(a)", mkMap [("b", GNode (s_ "c"))] true)] false) (Some (GBool true)) false
           (mkMap [(KInt 3, GNode (s_ "x"))] false).
Proof. eexists. split; reflexivity. Qed.

(** C38 is false: an example without metadata is written as a mapping with the empty key, and reading that panics, whatever the
    example. *)
Theorem C38_example_round_trip_refuted (F : FloatIO) :
  (forall k e n, ~ more_than_value e -> ex_to_yaml e = Ok n -> read_ex k n = Panic) /\
  (exists e n, read_ex TyString (s_ "x") = Ok e /\ ~ more_than_value e /\ ex_to_yaml e = Ok n).
Proof.
  split; [exact ex_short_broken|]. eexists. eexists. split; [reflexivity|]. split; [|reflexivity].
  intros [H|[H|[H|[H|H]]]]; apply H || discriminate H; reflexivity.
Qed.
Print Assumptions C38_example_round_trip_refuted.
(** What holds of C38: an expanded example whose values fit its kind, whose annotations are written as mappings and whose extra keys are
    not taken for something else comes back the same ([same_ex], Same.v). *)
Theorem C38_example_round_trip_partial (F : FloatIO) k e :
  more_than_value e -> ex_returns k e ->
  exists n e', ex_to_yaml e = Ok n /\ read_ex k n = Ok e' /\ same_ex k e e'.
Proof. exact (ex_round_trip k e). Qed.
Print Assumptions C38_example_round_trip_partial.
Example C38_case :
  let e := mkEx (Some "D") None (mkMap [("(a)", mkMap [("b", GInt 4); ("", GNil)] false)] false) (Some (GInt (-5))) false
                (mkMap [(KBool true, GStr "x"); (KStr "more", GList [GNil; GBool false])] false) in
  more_than_value e /\ ex_returns TyInteger e.
Proof.
  split; [left; discriminate|]. unfold ex_returns, ann_returns, ex_extra_returns, key_returns. cbn.
  repeat match goal with
         | |- _ /\ _ => split
         | |- Forall _ _ => constructor
         | |- NoDup _ => constructor
         end; try reflexivity; try (eexists; reflexivity); try (intros [E|[]]; discriminate); try (intros []; fail).
  - intros v E. injection E as <-. exists (-5)%Z. split; [reflexivity|lia].
  - eexists. split; reflexivity.
  - intros s E. discriminate.
  - eexists. split; reflexivity.
  - intros s E. injection E as <-. repeat split; try discriminate. cbn. intuition discriminate.
Qed.

(** C58 is false of types: enumerations add up, the kind comes from the first type key. *)
Theorem C58_last_wins_refuted (F : FloatIO) :
  (exists d, hat (Map TMap [(s_ "enum", Seq TSeq [s_ "a"]); (s_ "enum", Seq TSeq [s_ "b"])]) = Ok d /\
     getf FEnum d = Some (VVals (Some [GStr "a"; GStr "b"]))) /\
  (exists d, hat (Map TMap [(s_ "type", s_ "string"); (s_ "type", s_ "integer")]) = Ok d /\
     d_kind d = TyString /\ d_type d = "integer") /\
  (exists d, hat (Map TMap [(s_ "properties", Map TMap [(s_ "a", s_ "string")]); (s_ "properties", Map TMap [])]) = Ok d /\
     walk [Prop_ "a"] d <> None).
Proof.
  split; [|split]; eexists; (split; [reflexivity|]).
  - reflexivity.
  - split; reflexivity.
  - discriminate.
Qed.
Print Assumptions C58_last_wins_refuted.
(** What holds of C58 for types and examples.  Excepted: the keys [adding_keys] of types; NaN as an extra key of examples. *)
Theorem C58_last_wins_partial (F : FloatIO) :
  (forall t pre k1 v1 mid k2 v2 post d, t <> TStr ->
     value k1 = value k2 -> is_string k1 = is_string k2 -> ~ In (value k1) adding_keys ->
     hat (Map t (pre ++ (k1, v1) :: mid ++ (k2, v2) :: post)) = Ok d ->
     hat (Map t (pre ++ mid ++ (k2, v2) :: post)) = Ok d) /\
  (forall kd t pre key v1 mid v2 post e, findable key ->
     read_ex kd (Map t (pre ++ (key, v1) :: mid ++ (key, v2) :: post)) = Ok e ->
     read_ex kd (Map t (pre ++ mid ++ (key, v2) :: post)) = Ok e).
Proof. exact (conj repeated_key ex_repeated). Qed.
Print Assumptions C58_last_wins_partial.
Example C58_case :
  (exists d, hat (Map TMap ([(s_ "type", s_ "array")] ++ (s_ "minItems", int_node 1) :: [(s_ "x", s_ "y")] ++ (s_ "minItems", int_node 2) :: [])) = Ok d /\
     getf FMinItems d = Some (VInt 2)) /\ ~ In "minItems" adding_keys.
Proof. split; [eexists; split; reflexivity|]. cbn. intuition discriminate. Qed.

(** C59 is false: `type` and `schema` are different keys of the same thing, and so are `types` and `schemas`. *)
Theorem C59_key_order_types_refuted (F : FloatIO) :
  exists d d', hat (Map TMap [(s_ "type", s_ "integer"); (s_ "schema", s_ "string")]) = Ok d /\
               hat (Map TMap [(s_ "schema", s_ "string"); (s_ "type", s_ "integer")]) = Ok d' /\ d_kind d <> d_kind d'.
Proof. do 2 eexists. split; [reflexivity|]. split; [reflexivity|]. discriminate. Qed.
Print Assumptions C59_key_order_types_refuted.

(** What holds of C59 for types.  [no_repeats]: no text occurs twice among the keys, and not both `type` and `schema`. *)
Theorem C59_key_order_types_partial (F : FloatIO) t l l' d :
  t <> TStr -> Permutation l l' -> no_repeats l -> hat (Map t l) = Ok d ->
  exists d', hat (Map t l') = Ok d' /\ same_but_order d d'.
Proof. exact (order_of_keys t l l' d). Qed.
Print Assumptions C59_key_order_types_partial.
Example C59_case :
  let l := [(s_ "x", int_node 1); (s_ "minItems", int_node 1); (s_ "type", s_ "array"); (s_ "y", s_ "z")] in
  no_repeats l /\ Permutation l (rev l) /\ exists d, hat (Map TMap l) = Ok d /\ hat (Map TMap (rev l)) <> Ok d.
Proof.
  split; [|split; [apply Permutation_rev|eexists; split; [reflexivity|discriminate]]].
  split.
  - unfold text; cbn. repeat constructor; cbn; intuition discriminate.
  - intros [_ [e [H E]]]. cbn in H. destruct H as [<-|[<-|[<-|[<-|[]]]]]; discriminate.
Qed.

(** C60.  [at_path] (PathProofs.v) is the path in the document, [walk] the path through the getters. *)
Theorem C60_nested_types (F : FloatIO) :
  (forall ps n d d', hat n = Ok d -> (walk ps d = Some d' <-> exists m, at_path ps n m /\ hat m = Ok d')) /\
  (forall ps n m d, hat n = Ok d -> at_path ps n m -> exists d', hat m = Ok d' /\ walk ps d = Some d').
Proof. exact (conj whole_path path_reads). Qed.
Print Assumptions C60_nested_types.
Example C60_case : exists d d',
  hat (Map TMap [(s_ "properties", Map TMap [(s_ "a", Map TMap [(s_ "type", s_ "array"); (s_ "items", Map TMap
         [(s_ "properties", Map TMap [(s_ "b", s_ "date-only")])])])])]) = Ok d /\
  walk [Prop_ "a"; Items; Prop_ "b"] d = Some d' /\ d_kind d' = TyDateOnly.
Proof. eexists; eexists. repeat split. Qed.
