(** Properties of API documents and libraries: C29, C30, C43, C48-C54, C58, C59. *)
From Coq Require Import SpecFloat Permutation.
From Verif Require Import Base Num OMap OMapSpec Keys Yaml Values Assign Formats Meta Out Xml Example DataType Marshal Doc Api Library
  AssignProofs TypeFacts Fields FieldProofs FacetSpec FacetProofs DocProofs OrderProofs Lens Segs ExProofs Same ExRound WriteSpec WriteProofs
  RoundSpec RoundProofs Stable Crash ApiFields ApiSpec ApiProofs LibProofs ApiWrite ApiRoundSpec ApiRound LibRound ApiMore ApiOrder ApiReadRound.

(** Some float conversion, for the examples. *)
#[local] Instance toy : FloatIO := {
  float_of := fun _ s => if String.eqb s "0.5" then Some (S754_finite false 1 (-1)) else None;
  float_text := fun _ => (TFloat, "0.5")
}.

Local Notation s_ := str_node.
Local Notation m_ := (Map TMap).

(** ** C29 *)

(** C29 is false for API documents and libraries too. *)
Theorem C29_api_library_refuted (F : FloatIO) :
  api_unmarshal (m_ [(s_ "title", s_ "t"); (s_ "", s_ "x")]) new_api = Panic /\
  lib_unmarshal (m_ [(s_ "", s_ "x")]) new_library = Panic /\
  api_unmarshal (m_ [(s_ "types", m_ [(s_ "T", m_ [(s_ "properties", m_ [(s_ "p", s_ "nil")])])])]) new_api = Panic /\
  lib_unmarshal (m_ [(s_ "types", m_ [(s_ "T", m_ [(s_ "properties", m_ [(s_ "p", s_ "nil")])])])]) new_library = Panic.
Proof. repeat split. Qed.
Print Assumptions C29_api_library_refuted.

(** What holds of C29: no panic unless a key is the empty string or a type definition in the document can panic ([C29_types_partial]). *)
Theorem C29_api_partial (F : FloatIO) n a :
  (forall t l p, n = Map t l -> In p l -> ~ denotes_string (fst p) "" /\ (is_types_key p = true -> forall e, In e (pairs_of (snd p)) -> ~ crash (snd e))) ->
  api_unmarshal n a <> Panic.
Proof.
  intros H E. apply api_panic in E as [t [l [p [En [Hp [E|[E [e [He C]]]]]]]]]; destruct (H t l p En Hp) as [H1 H2]; [exact (H1 E)|exact (H2 E e He C)].
Qed.
Print Assumptions C29_api_partial.
Theorem C29_library_partial (F : FloatIO) n a :
  (forall t l p, n = Map t l -> In p l -> ~ denotes_string (fst p) "" /\ (lib_types_key p = true -> forall e, In e (pairs_of (snd p)) -> ~ crash (snd e))) ->
  lib_unmarshal n a <> Panic.
Proof.
  intros H E. apply lib_panic in E as [t [l [p [En [Hp [E|[E [e [He C]]]]]]]]]; destruct (H t l p En Hp) as [H1 H2]; [exact (H1 E)|exact (H2 E e He C)].
Qed.
Print Assumptions C29_library_partial.
Example C29_api_case :
  let n := m_ [(s_ "title", Seq TSeq []); (s_ "types", m_ [(s_ "T", m_ [(s_ "minimum", s_ "x")])]); (Scal TInt "3", s_ "x")] in
  forall t l p, n = Map t l -> In p l -> ~ denotes_string (fst p) "" /\ (is_types_key p = true -> forall e, In e (pairs_of (snd p)) -> ~ crash (snd e)).
Proof.
  cbv zeta. intros t l p E Hp. injection E as <- <-. destruct Hp as [<-|[<-|[<-|[]]]].
  all: split; [intros [T V]; discriminate|]; try discriminate.
  intros _ e He. destruct He as [<-|[]]. cbn [snd]. intros H.
  inversion H as [n H1|n m H1 H2|n m e H1 H2 H3|n m H1 H2|n m p H1 H2 H3|n m p d H1 H2 H3 H4|n m a p H1 H2 H3 H4]; subst.
  1: destruct H1 as [t0 [l0 [k0 [v0 [E [Hi [_ Hv]]]]]]]; injection E as <- <-; destruct Hi as [Hi|[]]; injection Hi as <- <-; discriminate Hv.
  all: destruct H1 as [t0 [l0 [k0 [E [Hi Hv]]]]]; injection E as <- <-; destruct Hi as [Hi|[]]; injection Hi as <- <-; discriminate Hv.
Qed.

(** ** C30 *)

(** C30 for API documents and libraries (for type definitions: [C30_types]). *)
Theorem C30_api (F : FloatIO) n a : api_unmarshal n new_api = Ok a -> exists n', api_marshal a = Ok n'.
Proof. exact (api_read_writes n a). Qed.
Print Assumptions C30_api.
Theorem C30_library (F : FloatIO) n a : lib_unmarshal n new_library = Ok a -> exists n', lib_marshal a = Ok n'.
Proof. exact (lib_read_writes n a). Qed.
Print Assumptions C30_library.
Example C30_api_case :
  (exists a, api_unmarshal (m_ [(s_ "title", s_ "t"); (s_ "(a)", m_ [(s_ "b", m_ [])]); (Scal TFloat "0.5", Seq TSeq [])]) new_api = Ok a) /\
  (exists a, lib_unmarshal (m_ [(s_ "usage", s_ "u"); (s_ "types", m_ [(s_ "T", s_ "A | B")])]) new_library = Ok a).
Proof. split; eexists; reflexivity. Qed.

(** ** C43 *)

(** C43 is false through an API document: everything in the entries is lost. *)
Theorem C43_documentation_refuted (F : FloatIO) :
  exists a n a' d, api_unmarshal (m_ [(s_ "title", s_ "t"); (s_ "documentation", Seq TSeq [m_ [(s_ "title", s_ "u"); (s_ "content", s_ "c")]])]) new_api = Ok a /\
    a_documentation a = Some [d] /\ doc_title d = "u" /\ doc_content d = "c" /\
    api_marshal a = Ok n /\ api_unmarshal n new_api = Ok a' /\ a_documentation a' = Some [new_doc].
Proof. do 4 eexists. repeat split. Qed.
Print Assumptions C43_documentation_refuted.

(** What holds of C43: through their own functions.  Missing: extra facets whose key has the text of a known key, or whose key or value cannot be written or
    does not read back, and (false) through API documents. *)
Theorem C43_documentation_partial (F : FloatIO) d : doc_returns d ->
  exists n d', out_to_yaml (doc_marshal d []) = Ok n /\ doc_unmarshal n new_doc = Ok d' /\ same_doc d d'.
Proof. exact (doc_round d). Qed.
Print Assumptions C43_documentation_partial.
Example C43_case : doc_returns (mkDoc "t" "c" (mkMap [(KStr "x", GNode (s_ "y")); (KInt 3, GInt 4); (KBool true, GStr "z")] true)).
Proof.
  split; [reflexivity|]. repeat constructor; try (eexists; split; reflexivity); try (eexists; reflexivity).
  all: intros n E; injection E as <-; cbn; intuition discriminate.
Qed.

(** ** C48 *)

(** C48: reading succeeds exactly on mappings all of whose pairs are acceptable, and then gives what the document says ([api_document]); it is unique. *)
Theorem C48_api_read (F : FloatIO) t l a :
  api_unmarshal (Map t l) new_api = Ok a <-> Forall api_acceptable l /\ api_document l a.
Proof. exact (api_read_iff t l a). Qed.
Print Assumptions C48_api_read.
Theorem C48_api_only_mappings (F : FloatIO) n a : api_unmarshal n new_api = Ok a -> exists t l, n = Map t l.
Proof. destruct n as [| |t l]; try discriminate. eauto. Qed.
Print Assumptions C48_api_only_mappings.
Theorem C48_api_unique (F : FloatIO) l a a' : api_document l a -> api_document l a' -> a = a'.
Proof. exact (api_document_fun l a a'). Qed.
Print Assumptions C48_api_unique.
(** The order, when no key is repeated. *)
Theorem C48_api_in_order (F : FloatIO) t l a : no_key_twice l -> api_unmarshal (Map t l) new_api = Ok a ->
  ents (a_resources a) = map (fun p => (value (fst p), GNode (snd p))) (filter (fun p => is_resource_key (fst p)) l) /\
  Forall2 ann_entry (filter (fun p => is_annotation_key (fst p)) l) (ents (a_annotations a)) /\
  Forall2 (fun p kv => to_scalar (fst p) = Ok (fst kv) /\ snd kv = GNode (snd p)) (filter api_extra_key l) (ents (a_extra a)).
Proof. exact (api_in_order t l a). Qed.
Print Assumptions C48_api_in_order.
Definition sample : list (node * node) :=
  [(s_ "/b", m_ [(s_ "get", Scal TNull "")]); (s_ "title", s_ "t"); (s_ "z", Seq TSeq []); (s_ "(n)", m_ [(s_ "k", s_ "v")]);
   (s_ "/a", Scal TNull ""); (s_ "mediaType", s_ "application/json"); (s_ "y", s_ "w"); (s_ "types", m_ [(s_ "T", s_ "integer")])].
Lemma sample_once : no_key_twice sample.
Proof.
  unfold no_key_twice, sample. repeat (constructor; [repeat constructor|]); try constructor.
  all: try (intros k k' E E'; cbn in E, E'; injection E as <-; injection E' as <-; reflexivity); try (intros [A B]; discriminate).
Qed.
Example C48_case : no_key_twice sample /\ exists a, api_unmarshal (m_ sample) new_api = Ok a /\
  map fst (ents (a_resources a)) = ["/b"; "/a"] /\ map fst (ents (a_extra a)) = [KStr "z"; KStr "y"].
Proof. split; [exact sample_once|]. eexists. split; [reflexivity|]. split; reflexivity. Qed.

(** ** C49 *)

(** C49 is false of documents in which an extra facet got the name of a section: the title is not first and not the title. *)
Theorem C49_api_written_refuted (F : FloatIO) :
  exists a n, a_title a = "t" /\ api_marshal a = Ok n /\ n = m_ [(s_ "version", s_ "v"); (s_ "title", s_ "x")].
Proof.
  exists (a_set_extra (mkMap [(KStr "title", GNode (s_ "x"))] false) (a_set_version (Some "v") (a_set_title "t" new_api))). eexists.
  split; [reflexivity|]. split; reflexivity.
Qed.
Print Assumptions C49_api_written_refuted.

(** What holds of C49: for documents in which the keys are distinct ([api_tidy]), which all documents that were read are.  The keys are those of the fields that
    are set, in a fixed order, once each; the title is first; a section is there exactly when its map is not empty; extra facets and resources keep their
    order and values. *)
Theorem C49_api_written_partial (F : FloatIO) a l : api_tidy a -> api_marshal a = Ok (Map TMap l) ->
  Forall2 (fun k p => key_node k = Ok (fst p)) (flat_map (api_field_keys a) api_order) l /\
  apart (flat_map (api_field_keys a) api_order) = true /\
  (exists rest, l = (str_node "title", str_node (a_title a)) :: rest) /\
  ((forall x, fst (float_text x) <> TStr) ->
   forall f, api_key f <> "" -> (exists n, In (str_node (api_key f), n) l) <-> api_field_keys a f <> []) /\
  (exists l1 xs rs l2, l = l1 ++ xs ++ rs ++ l2 /\
     Forall2 (fun e p => key_node (fst e) = Ok (fst p) /\ to_node (snd e) = Ok (snd p)) (ents (a_extra a)) xs /\
     Forall2 (fun e p => fst p = str_node (fst e) /\ to_node (snd e) = Ok (snd p)) (ents (a_resources a)) rs).
Proof. exact (api_written a l). Qed.
Print Assumptions C49_api_written_partial.
Theorem C49_api_read_tidy (F : FloatIO) t l a : api_unmarshal (Map t l) new_api = Ok a -> api_tidy a.
Proof. intros H. apply api_read_iff in H as [_ H]. exact (api_read_tidy l a H). Qed.
Print Assumptions C49_api_read_tidy.
Theorem C49_api_writes_mapping (F : FloatIO) a n : api_marshal a = Ok n -> exists l, n = Map TMap l.
Proof. unfold api_marshal. intros H. apply out_to_yaml_ok in H as [l [E _]]. eauto. Qed.
Print Assumptions C49_api_writes_mapping.
Example C49_case : exists a n, api_unmarshal (m_ sample) new_api = Ok a /\ api_marshal a = Ok n.
Proof. eexists. eexists. split; reflexivity. Qed.

(** ** C50 *)

(** C50 is false: an annotation is written in a form that is not read; the contents of documentation entries are lost (C43). *)
Theorem C50_api_round_trip_refuted (F : FloatIO) :
  (exists a n, api_unmarshal (m_ [(s_ "title", s_ "t"); (s_ "(a)", m_ [(s_ "b", s_ "c")])]) new_api = Ok a /\ api_marshal a = Ok n /\ api_unmarshal n new_api = Err) /\
  (exists a n a' d, a_documentation a = Some [d] /\ doc_title d = "u" /\ api_marshal a = Ok n /\ api_unmarshal n new_api = Ok a' /\ a_documentation a' = Some [new_doc]).
Proof.
  split; [do 2 eexists; repeat split|].
  exists (a_set_documentation (Some [mkDoc "u" "" (mkMap [] false)]) new_api). do 3 eexists. repeat split.
Qed.
Print Assumptions C50_api_round_trip_refuted.

(** What holds of C50: documents that were built or read, with empty documentation entries, annotations that are not written as ordered maps, and types that come
    back themselves ([api_returns]).  [same_api]: the same answers from all getters. *)
Theorem C50_api_round_trip_partial (F : FloatIO) a : api_returns a ->
  exists n a', api_marshal a = Ok n /\ api_unmarshal n new_api = Ok a' /\ same_api a a'.
Proof. exact (api_round_trip a). Qed.
Print Assumptions C50_api_round_trip_partial.
(** In terms of a document: it is read, written and read, with the same result, if its keys are strings, and it has no annotations and no documentation, and its
    types are [settled] (see C32). *)
Theorem C50_api_read_round_trip_partial (F : FloatIO) t l a : api_unmarshal (Map t l) new_api = Ok a ->
  Forall (fun p => is_string (fst p) = true /\ is_annotation_key (fst p) = false /\ named_key "documentation" p = false) l ->
  Forall (fun e => settled (snd e)) (ents (a_types a)) ->
  exists n a', api_marshal a = Ok n /\ api_unmarshal n new_api = Ok a' /\ same_api a a'.
Proof. exact (api_read_round t l a). Qed.
Print Assumptions C50_api_read_round_trip_partial.
Example C50_case :
  let l := filter (fun p => negb (is_annotation_key (fst p) || named_key "types" p)) sample in
  (exists a, api_unmarshal (m_ l) new_api = Ok a /\ Forall (fun e => settled (snd e)) (ents (a_types a))) /\ List.length l = 6%nat /\
  Forall (fun p => is_string (fst p) = true /\ is_annotation_key (fst p) = false /\ named_key "documentation" p = false) l.
Proof.
  cbv zeta. split; [eexists; split; [reflexivity|constructor]|]. split; [reflexivity|]. repeat constructor.
Qed.

(** ** C51 *)

(** C51: [synonym] pairs are equal, but for `types` and `schemas`. *)
Theorem C51_synonyms_api (F : FloatIO) t l l' a : Forall2 synonym l l' -> api_unmarshal (Map t l) a = api_unmarshal (Map t l') a.
Proof. exact (api_synonyms t l l' a). Qed.
Print Assumptions C51_synonyms_api.
Theorem C51_synonyms_library (F : FloatIO) t l l' a : Forall2 synonym l l' -> lib_unmarshal (Map t l) a = lib_unmarshal (Map t l') a.
Proof. exact (lib_synonyms t l l' a). Qed.
Print Assumptions C51_synonyms_library.
Theorem C51_synonyms_type (F : FloatIO) t pre k k' v post :
  (value k = "type" \/ value k = "schema") -> (value k' = "type" \/ value k' = "schema") ->
  hat (Map t (pre ++ (k, v) :: post)) = hat (Map t (pre ++ (k', v) :: post)).
Proof. exact (type_synonyms t pre k k' v post). Qed.
Print Assumptions C51_synonyms_type.
Example C51_case :
  Forall2 synonym [(s_ "title", s_ "t"); (s_ "types", m_ [(s_ "T", s_ "integer")])] [(s_ "title", s_ "t"); (s_ "schemas", m_ [(s_ "T", s_ "integer")])] /\
  exists a, api_unmarshal (m_ [(s_ "title", s_ "t"); (s_ "schemas", m_ [(s_ "T", s_ "integer")])]) new_api = Ok a /\ map fst (ents (a_types a)) = ["T"].
Proof.
  split; [|eexists; split; reflexivity]. constructor; [split; [reflexivity|left; reflexivity]|]. constructor; [|constructor].
  split; [reflexivity|]. right. repeat split; cbn; tauto.
Qed.

(** ** C52 *)

(** C52 is false: one media type is written as a list too. *)
Theorem C52_media_type_refuted (F : FloatIO) :
  exists a, api_unmarshal (m_ [(s_ "title", s_ "t"); (s_ "mediaType", s_ "text/plain")]) new_api = Ok a /\ a_mediaType a = Some ["text/plain"] /\
    api_marshal a = Ok (m_ [(s_ "title", s_ "t"); (s_ "mediaType", Seq TSeq [s_ "text/plain"])]).
Proof. eexists. split; [reflexivity|]. split; reflexivity. Qed.
Print Assumptions C52_media_type_refuted.
(** What holds of C52: whatever the list, it is written as a list and the same list is read. *)
Theorem C52_media_type_partial (F : FloatIO) a ms : api_returns a -> a_mediaType a = Some ms ->
  exists l a', api_marshal a = Ok (Map TMap l) /\ In (str_node "mediaType", Seq TSeq (map str_node ms)) l /\
    api_unmarshal (Map TMap l) new_api = Ok a' /\ a_mediaType a' = Some ms.
Proof.
  intros H E. destruct (api_round_trip a H) as [n [a' [H1 [H2 H3]]]]. assert (T := proj1 H). pose proof H1 as W. apply (api_written_iff a n T) in W as [l [-> W]].
  exists l, a'. split; [exact H1|]. split; [|split; [exact H2|]].
  - apply (Forall2_in_l wrote (flat_map (api_seg a) api_order) l (KStr "mediaType", Ok (Seq TSeq (map str_node ms)))) in W.
    + destruct W as [[k n] [Hi [W1 W2]]]. cbn in W1, W2. injection W1 as <-. injection W2 as <-. exact Hi.
    + apply in_flat_map. exists AMediaType. split; [apply api_order_all|]. cbn. rewrite E. left. reflexivity.
  - rewrite <- E. symmetry. exact (H3 AMediaType).
Qed.
Print Assumptions C52_media_type_partial.
Example C52_case : exists a, api_unmarshal (m_ [(s_ "title", s_ "t"); (s_ "mediaType", Seq TSeq [s_ "a"; s_ "b"])]) new_api = Ok a /\ a_mediaType a = Some ["a"; "b"] /\ api_returns a.
Proof.
  eexists. split; [reflexivity|]. split; [reflexivity|].
  apply (api_read_returns [(s_ "title", s_ "t"); (s_ "mediaType", Seq TSeq [s_ "a"; s_ "b"])]); [|repeat constructor..].
  refine (proj2 (proj1 (api_read_iff TMap _ _) _)). reflexivity.
Qed.

(** ** C53 *)

(** C53 is false: the annotation types go to the annotations, and in no library that was read are there annotation types. *)
Theorem C53_library_read_refuted (F : FloatIO) :
  (exists a, lib_unmarshal (m_ [(s_ "annotationTypes", m_ [(s_ "A", m_ [(s_ "type", s_ "string")])])]) new_library = Ok a /\
     ents (l_annotationTypes a) = [] /\ map fst (ents (l_annotations a)) = ["A"]) /\
  (forall n a, lib_unmarshal n new_library = Ok a -> ents (l_annotationTypes a) = []).
Proof.
  split; [eexists; repeat split|]. intros [| |t l] a H; try discriminate H. cbn in H. apply annotation_types_unread in H. rewrite H. reflexivity.
Qed.
Print Assumptions C53_library_read_refuted.
(** What holds of C53: libraries without annotationTypes. *)
Theorem C53_library_read_partial (F : FloatIO) t l a : Forall (fun p => text_key "annotationTypes" p = false) l ->
  lib_unmarshal (Map t l) new_library = Ok a <-> Forall lib_acceptable l /\ lib_document l a.
Proof. exact (lib_read_iff t l a). Qed.
Print Assumptions C53_library_read_partial.
Example C53_case :
  let l := [(s_ "usage", s_ "u"); (s_ "traits", m_ [(s_ "t", m_ [])]); (s_ "(a)", m_ [(s_ "b", s_ "c")]); (s_ "x", s_ "y")] in
  Forall (fun p => text_key "annotationTypes" p = false) l /\ exists a, lib_unmarshal (m_ l) new_library = Ok a /\ map fst (ents (l_extra a)) = [KStr "x"].
Proof. cbv zeta. split; [repeat constructor|]. eexists. split; reflexivity. Qed.

(** ** C54 *)

(** C54 is false: annotation types become annotations; annotations are not read again. *)
Theorem C54_library_round_trip_refuted (F : FloatIO) :
  (exists a n a', ents (l_annotationTypes a) <> [] /\ lib_marshal a = Ok n /\ lib_unmarshal n new_library = Ok a' /\ ents (l_annotationTypes a') = []) /\
  (exists a n, lib_unmarshal (m_ [(s_ "(a)", m_ [(s_ "b", s_ "c")])]) new_library = Ok a /\ lib_marshal a = Ok n /\ lib_unmarshal n new_library = Err).
Proof.
  split; [|do 2 eexists; repeat split].
  exists (l_set_annotationTypes (mkMap [("A", GNode (m_ []))] false) new_library). do 2 eexists. split; [discriminate|]. repeat split.
Qed.
Print Assumptions C54_library_round_trip_refuted.
(** What holds of C54: [lib_returns], as for C50, and no annotation types. *)
Theorem C54_library_round_trip_partial (F : FloatIO) a : lib_returns a ->
  exists n a', lib_marshal a = Ok n /\ lib_unmarshal n new_library = Ok a' /\ same_library a a'.
Proof. exact (lib_round_trip a). Qed.
Print Assumptions C54_library_round_trip_partial.
Theorem C54_library_written (F : FloatIO) a l : lib_tidy a -> lib_marshal a = Ok (Map TMap l) ->
  Forall2 (fun k p => key_node k = Ok (fst p)) (flat_map (lib_field_keys a) lib_order) l /\ apart (flat_map (lib_field_keys a) lib_order) = true.
Proof. exact (lib_written a l). Qed.
Print Assumptions C54_library_written.
Definition sample_lib : library :=
  l_set_traits (mkMap [("t", GNode (m_ [])); ("s", GStr "x")] false) (l_set_extra (mkMap [(KStr "e", GInt 3)] false) (l_set_usage (Some "u") new_library)).
Example C54_case : lib_returns sample_lib.
Proof.
  split; [|split; [|split; [|split; [|split; [|split; [reflexivity|split; [|split; [constructor|split]]]]]]]].
  - split; [constructor|]. split; [reflexivity|]. split; [|intros s []]. intros f _ _. split; [intros []|]. cbn. destruct f; intuition discriminate.
  - repeat constructor.
  - repeat constructor.
  - split; [reflexivity|]. split; [repeat constructor; cbn; intuition discriminate|]. repeat constructor; eexists; reflexivity.
  - repeat constructor.
  - repeat constructor.
  - repeat constructor; try (eexists; split; reflexivity); try (eexists; reflexivity).
    intros s E. injection E as <-. intros [E|E]; discriminate E.
  - repeat constructor. intros n E. injection E as <-. cbn. intuition discriminate.
Qed.

(** ** C58 *)

(** C58 is false for the sections that add up. *)
Theorem C58_api_repeated_refuted (F : FloatIO) :
  (exists a, api_unmarshal (m_ [(s_ "mediaType", s_ "a"); (s_ "mediaType", s_ "b")]) new_api = Ok a /\ a_mediaType a = Some ["a"; "b"]) /\
  (exists a, api_unmarshal (m_ [(s_ "uses", m_ [(s_ "a", s_ "1")]); (s_ "uses", m_ [(s_ "b", s_ "2")])]) new_api = Ok a /\ ents (a_uses a) = [("a", "1"); ("b", "2")]) /\
  (exists a, api_unmarshal (m_ [(s_ "documentation", Seq TSeq [m_ []]); (s_ "documentation", Seq TSeq [m_ []])]) new_api = Ok a /\
     a_documentation a = Some [new_doc; new_doc]).
Proof. split; [|split]; eexists; split; reflexivity. Qed.
Print Assumptions C58_api_repeated_refuted.
(** What holds of C58: all other keys.  ([findable]: not a NaN.) *)
Theorem C58_api_repeated_partial (F : FloatIO) t pre key v1 mid v2 post a : findable key ->
  (is_string key = true -> ~ In (value key) api_adding) ->
  api_unmarshal (Map t (pre ++ (key, v1) :: mid ++ (key, v2) :: post)) new_api = Ok a ->
  api_unmarshal (Map t (pre ++ mid ++ (key, v2) :: post)) new_api = Ok a.
Proof. exact (api_repeated t pre key v1 mid v2 post a). Qed.
Print Assumptions C58_api_repeated_partial.
Example C58_api_case :
  findable (s_ "/a") /\ ~ In (value (s_ "/a")) api_adding /\
  exists a, api_unmarshal (m_ ([] ++ (s_ "/a", s_ "1") :: [(s_ "/b", s_ "2")] ++ (s_ "/a", s_ "3") :: [])) new_api = Ok a /\ map fst (ents (a_resources a)) = ["/b"; "/a"].
Proof.
  split; [|split; [cbn; intuition discriminate|eexists; split; reflexivity]]. intros k E. injection E as <-. reflexivity.
Qed.

(** ** C59 *)

(** C59 is false of API documents with both `types` and `schemas`. *)
Theorem C59_key_order_api_refuted (F : FloatIO) :
  exists a a' d d', api_unmarshal (m_ [(s_ "types", m_ [(s_ "T", s_ "integer")]); (s_ "schemas", m_ [(s_ "T", s_ "string")])]) new_api = Ok a /\
    api_unmarshal (m_ [(s_ "schemas", m_ [(s_ "T", s_ "string")]); (s_ "types", m_ [(s_ "T", s_ "integer")])]) new_api = Ok a' /\
    ents (a_types a) = [("T", d)] /\ ents (a_types a') = [("T", d')] /\ d_kind d = TyString /\ d_kind d' = TyInteger.
Proof. do 4 eexists. repeat split. Qed.
Print Assumptions C59_key_order_api_refuted.

(** What holds of C59 for API documents. *)
Theorem C59_key_order_api_partial (F : FloatIO) t l l' a : Permutation l l' -> no_key_twice l -> api_unmarshal (Map t l) new_api = Ok a ->
  exists a', api_unmarshal (Map t l') new_api = Ok a' /\ same_api_but_order a a'.
Proof. exact (api_key_order t l l' a). Qed.
Print Assumptions C59_key_order_api_partial.
Example C59_api_case : no_key_twice sample /\ Permutation sample (rev sample) /\ exists a, api_unmarshal (m_ sample) new_api = Ok a /\ api_unmarshal (m_ (rev sample)) new_api <> Ok a.
Proof. split; [exact sample_once|]. split; [apply Permutation_rev|]. eexists. split; [reflexivity|discriminate]. Qed.
