(** C93: JSON and YAML of a map say the same. *)
From Coq Require Import SpecFloat Sorting.Permutation.
From Verif Require Import Base Num OMap OMapSpec OMapProofs OMapJson MapFacts Keys Yaml Values Assign AssignProofs JsonValues.

#[local] Instance toy : FloatIO := {|
  float_of t s := match t with TFloat => if String.eqb s "0.0" then Some (S754_zero false) else None | _ => None end;
  float_text f := (TFloat, "0.0")
|}.

(** [json_entries], [yaml_entries] and [shows] are in JsonValues.v.  [tag_text], [more] and [other] stand for what the model leaves out. *)

(** It holds for every map of strings (StringMap), after every history, in both forms: as many entries, the same keys, and under each key
    the value that the YAML has; in the same order when the map is written in order. *)
Theorem C93_strings_partial (F : FloatIO) (m : omap string string) en : sm_reachable m -> enumeration m en ->
  exists n j yl jl jl', map_to_yaml skey_node (fun s => Ok (str_node s)) (view m) = Ok n /\ map_json (fun s => Ok (JStr s)) m en = Ok j /\
    yaml_entries n yl /\ json_entries j jl /\ Permutation jl jl' /\ (outOrder m = true -> jl = jl') /\
    Forall2 (fun p e => fst p = str_node (fst e) /\ shows (snd p) (snd e)) yl jl'.
Proof.
  intros R E. apply both_say; [exact R|exact E|]. intros e _. do 2 eexists. repeat split. constructor.
Qed.
Print Assumptions C93_strings_partial.

(** It holds for every untyped map whose values are nil, strings, booleans, integers, numbers that JSON has, and lists of them. *)
Theorem C93_plain_partial (F : FloatIO) tag_text more other (m : omap string gval) en : sm_reachable m -> enumeration m en ->
  (forall k v, In (k, v) (entries m) -> plain v) ->
  exists n j yl jl jl', map_to_yaml skey_node to_node (view m) = Ok n /\ map_json (value_json tag_text more other) m en = Ok j /\
    yaml_entries n yl /\ json_entries j jl /\ Permutation jl jl' /\ (outOrder m = true -> jl = jl') /\
    Forall2 (fun p e => fst p = str_node (fst e) /\ shows (snd p) (snd e)) yl jl'.
Proof.
  intros R E H. apply both_say; [exact R|exact E|]. intros [k v] I. apply plain_value. exact (H k v I).
Qed.
Print Assumptions C93_plain_partial.
Example C93_case : exists m : omap string gval,
  sm_exec new_map [OPut "b" (GInt 3); OPut "a" (GList [GStr "x"; GNil]); OPut "c" (GFloat (S754_zero false)); OSerializeOrdered false] = Ok m /\
  (forall k v, In (k, v) (entries m) -> plain v) /\ enumeration m (index m) /\
  map_json (value_json (fun _ => "") (fun _ => []) (fun _ => Err)) m (index m) =
    Ok (JObj [("a", JArr [JStr "x"; JNull]); ("b", JInt 3); ("c", JFloat (S754_zero false))]).
Proof.
  eexists. split; [reflexivity|]. split; [|split; [apply Permutation_refl|reflexivity]].
  intros k v [H|[H|[H|[]]]]; injection H as <- <-; repeat constructor. exists TFloat, "0.0". split; reflexivity.
Qed.

(** It is false of every entry that holds a node: the JSON of the entry is the one value under its key, and never is the value of the node. *)
Theorem C93_nodes_refuted (F : FloatIO) tag_text more other (m : omap string gval) en j jl k n : sm_reachable m -> enumeration m en ->
  In (k, GNode n) (entries m) -> map_json (value_json tag_text more other) m en = Ok j -> json_entries j jl ->
  exists x, In (k, x) jl /\ ~ shows n x /\ forall y, In (k, y) jl -> y = x.
Proof. exact (nodes_differ tag_text more other m en j jl k n). Qed.
Print Assumptions C93_nodes_refuted.

(** So it is false of every entry of every untyped map that was loaded from a document, in both forms. *)
Theorem C93_loaded_refuted (F : FloatIO) tag_text more other t l (m : omap string gval) b en j jl :
  read_map sm_put as_gnode new_map (Map t l) = (m, Ok tt) -> enumeration (serialize_ordered b m) en ->
  map_json (value_json tag_text more other) (serialize_ordered b m) en = Ok j -> json_entries j jl ->
  List.length jl = len m /\
  forall k v, In (k, v) (entries m) -> exists p x, In p l /\ denotes_string (fst p) k /\ v = GNode (snd p) /\
    In (k, x) jl /\ ~ shows (snd p) x.
Proof.
  intros H E J L. destruct (loaded_nodes t l m H) as [R N].
  assert (R' : sm_reachable (serialize_ordered b m)).
  { destruct R as [ops Hops]. exists (ops ++ [OSerializeOrdered b]). rewrite exec_app, Hops. reflexivity. }
  split.
  - pose proof J as J'. apply map_json_ok in J'; [|assumption..]. destruct J' as (l' & js & P & _ & M & Hj & _).
    assert (js = jl) as -> by (eapply json_entries_fun; [|exact L]; rewrite Hj; destruct (outOrder (serialize_ordered b m)); constructor).
    assert (Q : List.length jl = List.length l') by (clear - M; induction M; cbn; congruence).
    rewrite Q, (Permutation_length P), entries_ordered. reflexivity.
  - intros k v I. destruct (N (k, v) I) as (p & A & B & C). cbn in B, C. subst v.
    assert (I' : In (k, GNode (snd p)) (entries (serialize_ordered b m))) by (rewrite entries_ordered in I |- *; exact I).
    destruct (nodes_differ tag_text more other (serialize_ordered b m) en j jl k (snd p) R' E I' J L) as (x & X1 & X2 & _).
    exists p, x. auto.
Qed.
Print Assumptions C93_loaded_refuted.
Example C93_loaded_case : exists m,
  read_map sm_put as_gnode new_map (Map TMap [(str_node "a", str_node "x")]) = (m, Ok tt) /\
  map_to_yaml skey_node to_node (view (serialize_ordered false m)) = Ok (Map TMap [(str_node "a", str_node "x")]) /\
  map_json (value_json (fun _ => "!!str") (fun _ => []) (fun _ => Err)) (serialize_ordered false m) (index m) =
    Ok (JObj [("a", JObj [("Kind", JInt 8); ("Tag", JStr "!!str"); ("Value", JStr "x"); ("Content", JNull)])]).
Proof. eexists. split; [reflexivity|]. split; reflexivity. Qed.

(** It is false of every map with a number that JSON does not have: the map is written as YAML and not as JSON. *)
Theorem C93_numbers_refuted (F : FloatIO) tag_text more other f : ~ (f <> S754_nan /\ forall s, f <> S754_infinity s) ->
  exists m : omap string gval, sm_reachable m /\ (exists n, map_to_yaml skey_node to_node (view m) = Ok n) /\
    forall en, enumeration m en -> map_json (value_json tag_text more other) m en = Err.
Proof.
  intros H. exists (mkOMap [("a", GFloat f)] [("a", GFloat f)] true). split; [exists [OPut "a" (GFloat f)]; reflexivity|].
  split; [eexists; reflexivity|]. intros en _. unfold map_json. cbn. unfold entry_json. cbn. unfold float_json.
  destruct f; try reflexivity; exfalso; apply H; split; intros; discriminate.
Qed.
Print Assumptions C93_numbers_refuted.
