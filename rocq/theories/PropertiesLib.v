(** Properties of libraries: C53 for every document, C54 from a document, C61 and C62. *)
From Coq Require Import SpecFloat Permutation.
From Verif Require Import Base Num OMap OMapSpec Keys Yaml Values Assign Formats Meta Out Xml Example DataType Marshal Doc Api Library
  AssignProofs TypeFacts Fields FieldProofs FacetSpec FacetProofs DocProofs OrderProofs Lens Segs ExProofs Same ExRound WriteSpec WriteProofs
  RoundSpec RoundProofs Stable Crash ApiFields ApiSpec ApiProofs LibProofs ApiWrite ApiRoundSpec ApiRound LibRound ApiMore ApiOrder ApiReadRound LibAll LibOrder LibReadRound.

(** Some float conversion, for the examples. *)
#[local] Instance toy : FloatIO := {
  float_of := fun _ s => if String.eqb s "0.5" then Some (S754_finite false 1 (-1)) else None;
  float_text := fun _ => (TFloat, "0.5")
}.

Local Notation s_ := str_node.
Local Notation m_ := (Map TMap).

(** ** C53 *)

(** What reading does for every document, with annotation types or without, and which documents are accepted: C53 holds of every field but the annotations, which also
    get the entries of `annotationTypes` ([lib_ann_pairs]), and the annotation types, which stay empty. *)
Theorem C53_library_read_all_partial (F : FloatIO) t l a :
  lib_unmarshal (Map t l) new_library = Ok a <-> Forall lib_allows l /\ lib_actual l a.
Proof. exact (lib_read_all_iff t l a). Qed.
Print Assumptions C53_library_read_all_partial.
Example C53_all_case :
  let l := [(s_ "usage", s_ "u"); (s_ "annotationTypes", m_ [(s_ "A", m_ [(s_ "b", s_ "c")])]); (s_ "(a)", m_ [(s_ "b", s_ "c")]); (s_ "x", s_ "y")] in
  exists a, lib_unmarshal (m_ l) new_library = Ok a /\ map fst (ents (l_annotations a)) = ["A"; "(a)"] /\ map fst (ents (l_extra a)) = [KStr "x"].
Proof. cbv zeta. eexists. repeat split. Qed.

(** ** C54 *)

(** C54 in terms of a document: it is read, written and read, with the same result, if its keys are strings, and it has no annotations and no annotation types,
    and its types are [settled] (see C32). *)
Theorem C54_library_read_round_trip_partial (F : FloatIO) t l a : lib_unmarshal (Map t l) new_library = Ok a ->
  Forall (fun p => is_string (fst p) = true /\ is_annotation_key (fst p) = false /\ text_key "annotationTypes" p = false) l ->
  Forall (fun e => settled (snd e)) (ents (l_types a)) ->
  exists n a', lib_marshal a = Ok n /\ lib_unmarshal n new_library = Ok a' /\ same_library a a'.
Proof. exact (lib_read_round t l a). Qed.
Print Assumptions C54_library_read_round_trip_partial.
Example C54_read_case :
  let l := [(s_ "x", s_ "y"); (s_ "usage", s_ "u"); (s_ "traits", m_ [(s_ "t", m_ [])]); (s_ "uses", m_ [(s_ "l", s_ "file")])] in
  Forall (fun p => is_string (fst p) = true /\ is_annotation_key (fst p) = false /\ text_key "annotationTypes" p = false) l /\
  exists a, lib_unmarshal (m_ l) new_library = Ok a /\ Forall (fun e => settled (snd e)) (ents (l_types a)) /\
    map fst (ents (l_traits a)) = ["t"] /\ map fst (ents (l_extra a)) = [KStr "x"].
Proof. cbv zeta. split; [repeat constructor|]. eexists. split; [reflexivity|]. split; [constructor|]. split; reflexivity. Qed.

(** ** C61 *)

(** C61 is false for the sections that add up. *)
Theorem C61_library_repeated_refuted (F : FloatIO) :
  exists a a', lib_unmarshal (m_ [(s_ "uses", m_ [(s_ "a", s_ "1")]); (s_ "uses", m_ [(s_ "b", s_ "2")])]) new_library = Ok a /\
    lib_unmarshal (m_ [(s_ "uses", m_ [(s_ "b", s_ "2")])]) new_library = Ok a' /\
    ents (l_uses a) = [("a", "1"); ("b", "2")] /\ ents (l_uses a') = [("b", "2")].
Proof. do 2 eexists. repeat split. Qed.
Print Assumptions C61_library_repeated_refuted.
(** What holds of C61: all other keys.  ([findable]: not a NaN.) *)
Theorem C61_library_repeated_partial (F : FloatIO) t pre key v1 mid v2 post a : findable key -> ~ In (value key) lib_adding ->
  lib_unmarshal (Map t (pre ++ (key, v1) :: mid ++ (key, v2) :: post)) new_library = Ok a ->
  lib_unmarshal (Map t (pre ++ mid ++ (key, v2) :: post)) new_library = Ok a.
Proof. exact (lib_repeated t pre key v1 mid v2 post a). Qed.
Print Assumptions C61_library_repeated_partial.
Example C61_case :
  findable (s_ "e") /\ ~ In (value (s_ "e")) lib_adding /\
  exists a, lib_unmarshal (m_ ([(s_ "usage", s_ "u")] ++ (s_ "e", s_ "1") :: [(s_ "f", s_ "2")] ++ (s_ "e", s_ "3") :: [])) new_library = Ok a /\
    map fst (ents (l_extra a)) = [KStr "f"; KStr "e"].
Proof.
  split; [|split; [cbn; intuition discriminate|eexists; split; reflexivity]]. intros k E. injection E as <-. reflexivity.
Qed.

(** ** C62 *)

(** C62 is false of libraries with both `types` and `schemas`, and of libraries with an annotation and an annotation type of the same name. *)
Theorem C62_library_key_order_refuted (F : FloatIO) :
  (exists a a' d d', lib_unmarshal (m_ [(s_ "types", m_ [(s_ "T", s_ "integer")]); (s_ "schemas", m_ [(s_ "T", s_ "string")])]) new_library = Ok a /\
    lib_unmarshal (m_ [(s_ "schemas", m_ [(s_ "T", s_ "string")]); (s_ "types", m_ [(s_ "T", s_ "integer")])]) new_library = Ok a' /\
    ents (l_types a) = [("T", d)] /\ ents (l_types a') = [("T", d')] /\ d_kind d = TyString /\ d_kind d' = TyInteger) /\
  (exists a a', lib_unmarshal (m_ [(s_ "annotationTypes", m_ [(s_ "(A)", m_ [])]); (s_ "(A)", m_ [(s_ "b", s_ "c")])]) new_library = Ok a /\
    lib_unmarshal (m_ [(s_ "(A)", m_ [(s_ "b", s_ "c")]); (s_ "annotationTypes", m_ [(s_ "(A)", m_ [])])]) new_library = Ok a' /\
    map (fun e => ents (snd e)) (ents (l_annotations a)) = [[("b", GNode (s_ "c"))]] /\ map (fun e => ents (snd e)) (ents (l_annotations a')) = [[]]).
Proof. split; [do 4 eexists|do 2 eexists]; repeat split. Qed.
Print Assumptions C62_library_key_order_refuted.
(** What holds of C62: [lib_differ] leaves out `types` beside `schemas`, and the names of annotations and annotation types ([lib_ann_pairs]) are all different. *)
Theorem C62_library_key_order_partial (F : FloatIO) t l l' a : Permutation l l' -> ForallOrdPairs lib_differ l ->
  NoDup (map text (lib_ann_pairs l)) -> lib_unmarshal (Map t l) new_library = Ok a ->
  exists a', lib_unmarshal (Map t l') new_library = Ok a' /\ same_library_but_order a a'.
Proof. exact (lib_key_order t l l' a). Qed.
Print Assumptions C62_library_key_order_partial.
Definition sample_lib_doc : list (node * node) :=
  [(s_ "x", s_ "y"); (s_ "usage", s_ "u"); (s_ "annotationTypes", m_ [(s_ "A", m_ []); (s_ "B", m_ [])]); (s_ "z", s_ "w"); (s_ "traits", m_ [(s_ "t", m_ [])]); (s_ "types", m_ [(s_ "T", s_ "integer")])].
Example C62_case : Permutation sample_lib_doc (rev sample_lib_doc) /\ ForallOrdPairs lib_differ sample_lib_doc /\
  NoDup (map text (lib_ann_pairs sample_lib_doc)) /\
  exists a, lib_unmarshal (m_ sample_lib_doc) new_library = Ok a /\ lib_unmarshal (m_ (rev sample_lib_doc)) new_library <> Ok a.
Proof.
  split; [apply Permutation_rev|]. split; [|split; [repeat constructor; cbn; intuition discriminate|eexists; split; [reflexivity|discriminate]]].
  assert (D : forall a b x y, a <> b -> ~ (In a ["types"; "schemas"] /\ In b ["types"; "schemas"]) -> lib_differ (s_ a, x) (s_ b, y)).
  { intros a b x y N N2. split; [exact N|]. split.
    - intros k k' E E'. injection E as <-. injection E' as <-. cbn. apply String.eqb_neq. exact N.
    - cbn. unfold lib_types_key, text_key. cbn. intros [H1 H2]. apply N2. apply orb_true_iff in H1, H2. rewrite !String.eqb_eq in H1, H2. cbn. intuition. }
  repeat constructor; apply D; cbn; intuition discriminate.
Qed.
