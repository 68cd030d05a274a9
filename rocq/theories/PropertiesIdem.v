(** Property C68: formatting what is formatted changes nothing. *)
From Coq Require Import SpecFloat.
From Verif Require Import Base Num OMap OMapSpec Keys Yaml Values Assign Formats Meta Out Xml Example DataType Marshal Doc Api Library
  TypeFacts Fields FacetSpec WriteSpec RoundSpec Same ExRound ApiSpec Stable IdemSpec Idem ApiIdem.

(** Some float conversion, for the examples. *)
#[local] Instance toy : FloatIO := {
  float_of := fun _ s => if String.eqb s "0.5" then Some (S754_finite false 1 (-1)) else None;
  float_text := fun _ => (TFloat, "0.5")
}.
Local Notation s_ := str_node.
Local Notation m_ := (Map TMap).


(** ** C68: type definitions *)

(** The code does not do that.  A key that is not a string but reads like an annotation, as in `!!int "(a)": {b: c}`, is an extra facet the first time and an
    annotation the second. *)
Definition odd_key : node := m_ [(s_ "type", s_ "string"); (Scal TInt "(a)", m_ [(s_ "b", s_ "c")])].
Theorem C68_type_key_refuted (F : FloatIO) : ~ settles format_type.
Proof.
  intros H. assert (E := H odd_key _ _ eq_refl eq_refl). discriminate E.
Qed.
Print Assumptions C68_type_key_refuted.

(** With `type: string` and later `schema: integer`, `minimum` is an extra facet the first time and a facet the second, and has another place then. *)
Definition two_types : node := m_ [(s_ "type", s_ "string"); (s_ "schema", s_ "integer"); (s_ "minimum", Scal TInt "3"); (s_ "pattern", s_ "x")].
Theorem C68_type_schema_refuted (F : FloatIO) : exists n1 n2, format_type two_types = Ok n1 /\ format_type n1 = Ok n2 /\ n2 <> n1.
Proof. eexists. eexists. split; [reflexivity|]. split; [reflexivity|discriminate]. Qed.
Print Assumptions C68_type_schema_refuted.

(** What holds: the definition that was loaded is [regular]. *)
Theorem C68_type_partial (F : FloatIO) n d n1 n2 : hat n = Ok d -> regular d ->
  format_type n = Ok n1 -> format_type n1 = Ok n2 -> n2 = n1.
Proof.
  intros H R W1 W2. unfold format_type in *. rewrite H in W1. cbn [bind] in W1. apply bind_ok in W2 as [d' [H' W2]].
  pose proof (regular_again d R n H n1 d' W1 H'). congruence.
Qed.
Print Assumptions C68_type_partial.

(** What formatting changes the first time, among other things: the order of keys, `schema`, XML settings. *)
Definition messy : node :=
  m_ [(s_ "minProperties", Scal TInt "1"); (s_ "x", Seq TSeq [Scal TBool "true"]);
      (s_ "properties", m_ [(s_ "a", m_ [(s_ "minLength", Scal TInt "2"); (s_ "xml", m_ [(s_ "name", s_ "q")]); (s_ "schema", s_ "string")]);
                            (s_ "b", m_ [(s_ "type", s_ "number"); (s_ "maximum", Scal TFloat "0.5");
                                         (s_ "example", m_ [(s_ "value", Scal TFloat "0.5"); (s_ "displayName", s_ "half")])])]);
      (s_ "schema", s_ "object"); (s_ "description", s_ "d")].

Ltac is_regular := constructor;
  [ intros _; apply named_kind_of; vm_compute; reflexivity
  | intros _ _ ? Hi; vm_compute in Hi; repeat (destruct Hi as [Hi|Hi]; [injection Hi as <-; reflexivity|]); destruct Hi
  | let f := fresh in intros f ? G; destruct f; vm_compute in G; try discriminate G; injection G as <-; exists TFloat, "0.5"; split; vm_compute; reflexivity
  | intros ? ? G; vm_compute in G; discriminate G
  | intros ? G; vm_compute in G; try discriminate G; injection G as <-
  | intros ? ? ? G; vm_compute in G; try discriminate G; injection G as <-; intros Hi; vm_compute in Hi; try destruct Hi
  | intros ? G; vm_compute in G; try discriminate G; injection G as <-
  | intros ? ? ? G; vm_compute in G; try discriminate G; injection G as <-; intros Hi; cbn [ents In] in Hi ].

Example C68_type_case : exists d n1, hat messy = Ok d /\ regular d /\ format_type messy = Ok n1 /\ n1 <> messy /\ format_type n1 = Ok n1.
Proof.
  eexists. eexists. split; [vm_compute; reflexivity|]. split; [|split; [vm_compute; reflexivity|split; [discriminate|vm_compute; reflexivity]]].
  is_regular. destruct Hi as [Hi|[Hi|[]]]; injection Hi as <- <-; is_regular.
  split.
  - intros x E. vm_compute in E. injection E as <-. exists TFloat, "0.5". split; vm_compute; reflexivity.
  - intros x v [].
Qed.

(** ** C68: API documents *)

Theorem C68_api_refuted (F : FloatIO) : ~ settles format_api.
Proof. intros H. assert (E := H (m_ [(s_ "types", m_ [(s_ "t", odd_key)])]) _ _ eq_refl eq_refl). discriminate E. Qed.
Print Assumptions C68_api_refuted.

(** What holds: the types that were loaded are [regular], and the keys of the extra entries that are floating-point numbers come back. *)
Theorem C68_api_partial (F : FloatIO) t l a n1 n2 : api_unmarshal (Map t l) new_api = Ok a -> exact_keys (a_extra a) ->
  (forall s d, In (s, d) (ents (a_types a)) -> regular d) ->
  format_api (Map t l) = Ok n1 -> format_api n1 = Ok n2 -> n2 = n1.
Proof.
  intros H K R W1 W2. unfold format_api in *. rewrite H in W1. cbn [bind] in W1. apply bind_ok in W2 as [a' [H' W2]].
  pose proof (api_again t l a n1 a' H K R W1 H'). congruence.
Qed.
Print Assumptions C68_api_partial.

(** The single media type, the text of the documentation, the order of the keys, `schemas` and what is in the types change the first time. *)
Definition messy_api : node :=
  m_ [(s_ "/users", m_ [(s_ "get", Scal TNull "")]); (s_ "schemas", m_ [(s_ "m", messy)]); (Scal TFloat "0.5", s_ "half"); (s_ "mediaType", s_ "application/json");
      (s_ "documentation", Seq TSeq [m_ [(s_ "title", s_ "Home"); (s_ "content", s_ "Welcome")]]); (s_ "version", s_ "v1"); (s_ "title", s_ "T");
      (s_ "traits", m_ [(s_ "paged", m_ [])]); (s_ "vendor", Scal TInt "7")].

Example C68_api_case : exists a n1, api_unmarshal messy_api new_api = Ok a /\ exact_keys (a_extra a) /\
  (exists s d, In (s, d) (ents (a_types a))) /\ (forall s d, In (s, d) (ents (a_types a)) -> regular d) /\
  format_api messy_api = Ok n1 /\ n1 <> messy_api /\ format_api n1 = Ok n1.
Proof.
  destruct C68_type_case as [d [_ [Hd [Hr _]]]]. vm_compute in Hd. injection Hd as <-.
  eexists. eexists. split; [vm_compute; reflexivity|]. split; [|split; [|split; [|split; [vm_compute; reflexivity|split; [discriminate|vm_compute; reflexivity]]]]].
  - intros x v [E|[E|[]]]; [|discriminate E]. injection E as <- <-. vm_compute. reflexivity.
  - eexists. eexists. left. reflexivity.
  - intros s d [E|[]]. injection E as <- <-. exact Hr.
Qed.

(** ** C68: libraries *)

Theorem C68_library_refuted (F : FloatIO) : ~ settles format_library.
Proof. intros H. assert (E := H (m_ [(s_ "types", m_ [(s_ "t", odd_key)])]) _ _ eq_refl eq_refl). discriminate E. Qed.
Print Assumptions C68_library_refuted.

(** An annotation type is written as if it were an annotation, and is an extra entry then, which has another place. *)
Definition with_annotation_type : node :=
  m_ [(s_ "annotationTypes", m_ [(s_ "foo", m_ [(s_ "type", s_ "string")])]); (s_ "resourceTypes", m_ [(s_ "x", m_ [])])].
Theorem C68_library_annotation_types_refuted (F : FloatIO) :
  exists n1 n2, format_library with_annotation_type = Ok n1 /\ format_library n1 = Ok n2 /\ n2 <> n1.
Proof. eexists. eexists. split; [reflexivity|]. split; [reflexivity|discriminate]. Qed.
Print Assumptions C68_library_annotation_types_refuted.

(** What holds: there are no annotation types, and as for API documents. *)
Theorem C68_library_partial (F : FloatIO) t l a n1 n2 : lib_unmarshal (Map t l) new_library = Ok a ->
  Forall (fun p => value (fst p) <> "annotationTypes") l -> exact_keys (l_extra a) -> plain_keys (l_extra a) ->
  (forall s d, In (s, d) (ents (l_types a)) -> regular d) ->
  format_library (Map t l) = Ok n1 -> format_library n1 = Ok n2 -> n2 = n1.
Proof.
  intros H N K P R W1 W2. unfold format_library in *. rewrite H in W1. cbn [bind] in W1. apply bind_ok in W2 as [a' [H' W2]].
  assert (N' : Forall (fun p => text_key "annotationTypes" p = false) l).
  { eapply Forall_impl; [|exact N]. intros p Hp. apply String.eqb_neq. exact Hp. }
  pose proof (lib_again t l a n1 a' H N' K P R W1 H'). congruence.
Qed.
Print Assumptions C68_library_partial.

Definition messy_library : node :=
  m_ [(s_ "schemas", m_ [(s_ "m", messy)]); (Scal TFloat "0.5", s_ "half"); (s_ "traits", m_ [(s_ "paged", m_ [])]); (s_ "uses", m_ [(s_ "l", s_ "l.raml")]);
      (s_ "vendor", Scal TInt "7"); (s_ "usage", s_ "u")].

Example C68_library_case : exists t l a n1, messy_library = Map t l /\ lib_unmarshal messy_library new_library = Ok a /\
  Forall (fun p => value (fst p) <> "annotationTypes") l /\ exact_keys (l_extra a) /\ plain_keys (l_extra a) /\
  (exists s d, In (s, d) (ents (l_types a))) /\ (forall s d, In (s, d) (ents (l_types a)) -> regular d) /\
  format_library messy_library = Ok n1 /\ n1 <> messy_library /\ format_library n1 = Ok n1.
Proof.
  destruct C68_type_case as [d [_ [Hd [Hr _]]]]. vm_compute in Hd. injection Hd as <-.
  eexists. eexists. eexists. eexists. split; [reflexivity|]. split; [vm_compute; reflexivity|].
  split; [repeat constructor; discriminate|]. split; [|split; [|split; [|split; [|split; [vm_compute; reflexivity|split; [discriminate|vm_compute; reflexivity]]]]]].
  - intros x v [E|[E|[]]]; [|discriminate E]. injection E as <- <-. vm_compute. reflexivity.
  - intros x v _ Hi. cbn in Hi. intuition discriminate.
  - eexists. eexists. left. reflexivity.
  - intros s d [E|[]]. injection E as <- <-. exact Hr.
Qed.
