(** Property C69: which documents survive loading, saving and loading is known exactly. *)
From Coq Require Import SpecFloat.
From Verif Require Import Base Num OMap OMapSpec Keys Yaml Values Assign Formats Meta Out Xml Example DataType Marshal Doc Api Library
  TypeFacts Fields FacetSpec WriteSpec RoundSpec Same ExRound ApiSpec Writable Stable IdemSpec Exact ApiExact.

(** Some float conversion, for the examples. *)
#[local] Instance toy : FloatIO := {
  float_of := fun _ s => if String.eqb s "0.5" then Some (S754_finite false 1 (-1)) else None;
  float_text := fun _ => (TFloat, "0.5")
}.
Local Notation s_ := str_node.
Local Notation m_ := (Map TMap).

(** ** C69: type definitions *)

(** [settled] (Stable.v) says, at every depth: no annotations, no facet definitions, no XML settings but the empty ones, no example without
    metadata, no wrapped negative number, no extra facet with an empty name or one that begins with a parenthesis (but in a nil type), a type
    string that names the kind, no extra facets next to an include; floating-point numbers whose text means them again. *)
Theorem C69_type (F : FloatIO) n d : hat n = Ok d ->
  ((exists n', to_yaml d = Ok n' /\ hat n' = Ok d) <-> settled d).
Proof. exact (comes_back n d). Qed.
Print Assumptions C69_type.

Definition good_type : node :=
  m_ [(s_ "minProperties", Scal TInt "1"); (s_ "x", Seq TSeq [Scal TBool "true"]);
      (s_ "properties", m_ [(s_ "a", m_ [(s_ "minLength", Scal TInt "2"); (s_ "schema", s_ "string")]);
                            (s_ "b", m_ [(s_ "type", s_ "number"); (s_ "maximum", Scal TFloat "0.5"); (s_ "enum", Seq TSeq [Scal TFloat "0.5"]);
                                         (s_ "example", m_ [(s_ "value", Scal TFloat "0.5"); (s_ "displayName", s_ "half")])])]);
      (s_ "schema", s_ "object"); (s_ "description", s_ "d")].
Definition bad_type : node := m_ [(s_ "type", s_ "array"); (s_ "items", m_ [(s_ "type", s_ "string"); (s_ "example", s_ "e")])].

Example C69_type_case :
  (exists d n', hat good_type = Ok d /\ to_yaml d = Ok n' /\ hat n' = Ok d /\ settled d) /\
  (exists d, hat bad_type = Ok d /\ ~ settled d).
Proof.
  split.
  - eexists. eexists. split; [vm_compute; reflexivity|]. split; [vm_compute; reflexivity|]. split; [vm_compute; reflexivity|].
    apply (C69_type toy good_type); [vm_compute; reflexivity|]. eexists. split; [vm_compute; reflexivity|]. vm_compute. reflexivity.
  - eexists. split; [vm_compute; reflexivity|]. intros S. apply (C69_type toy bad_type) in S; [|vm_compute; reflexivity].
    destruct S as [n' [W R]]. vm_compute in W. injection W as <-. vm_compute in R. discriminate R.
Qed.

(** Reading it back gives the same or nothing at all to rely on: a definition that is not settled gives another one, an error or a panic. *)
Corollary C69_type_otherwise (F : FloatIO) n d n' : hat n = Ok d -> to_yaml d = Ok n' -> ~ settled d -> hat n' <> Ok d.
Proof. intros H W S R. apply S. exact (exact n d n' H W R). Qed.
Print Assumptions C69_type_otherwise.

(** ** C69: examples *)

Theorem C69_example (F : FloatIO) k n e : read_ex k n = Ok e ->
  ((exists m, ex_to_yaml e = Ok m /\ read_ex k m = Ok e) <-> settled_ex e).
Proof.
  intros H. split; [intros [m [W R]]; exact (ex_exact k n e m H W R)|]. intros Se.
  destruct (ex_round_trip k e (proj1 Se) (settled_ex_returns k n e H Se)) as [m [e' [W [R Sm]]]]. exists m. split; [exact W|].
  rewrite R. f_equal. symmetry. eapply same_ex_eq; [exact Sm|eapply read_ex_read; exact H|eapply read_ex_read; exact R].
Qed.
Print Assumptions C69_example.

Example C69_example_case : exists e m, read_ex TyString (m_ [(s_ "description", s_ "d"); (s_ "value", s_ "v"); (Scal TInt "3", s_ "x")]) = Ok e /\ ex_to_yaml e = Ok m /\ read_ex TyString m = Ok e.
Proof. eexists. eexists. split; [vm_compute; reflexivity|]. split; [vm_compute; reflexivity|]. vm_compute. reflexivity. Qed.

(** ** C69: API documents *)

Theorem C69_api (F : FloatIO) n a : api_unmarshal n new_api = Ok a ->
  ((exists n', api_marshal a = Ok n' /\ api_unmarshal n' new_api = Ok a) <-> settled_api a).
Proof. exact (api_comes_back n a). Qed.
Print Assumptions C69_api.

Definition good_api : node :=
  m_ [(s_ "/users", m_ [(s_ "get", Scal TNull "")]); (s_ "schemas", m_ [(s_ "m", good_type)]); (Scal TFloat "0.5", s_ "half"); (s_ "mediaType", s_ "application/json");
      (s_ "version", s_ "v1"); (s_ "title", s_ "T"); (s_ "traits", m_ [(s_ "paged", m_ [])]); (s_ "vendor", Scal TInt "7")].
Definition bad_api : node := m_ [(s_ "title", s_ "T"); (s_ "documentation", Seq TSeq [m_ [(s_ "title", s_ "Home"); (s_ "content", s_ "Welcome")]])].

Example C69_api_case :
  (exists a n', api_unmarshal good_api new_api = Ok a /\ api_marshal a = Ok n' /\ api_unmarshal n' new_api = Ok a /\ n' <> good_api) /\
  (exists a, api_unmarshal bad_api new_api = Ok a /\ ~ settled_api a).
Proof.
  split.
  - eexists. eexists. split; [vm_compute; reflexivity|]. split; [vm_compute; reflexivity|]. split; [vm_compute; reflexivity|discriminate].
  - eexists. split; [vm_compute; reflexivity|]. intros [_ [S _]]. vm_compute in S. inversion S as [|x y E]; subst. discriminate E.
Qed.

(** ** C69: libraries *)

(** The keys of a library are told by their text alone, so this needs that floating-point numbers are not written like one. *)
Theorem C69_library (F : FloatIO) n a : tame_floats -> lib_unmarshal n new_library = Ok a ->
  ((exists n', lib_marshal a = Ok n' /\ lib_unmarshal n' new_library = Ok a) <-> settled_lib a).
Proof. exact (lib_comes_back n a). Qed.
Print Assumptions C69_library.

Definition good_lib : node :=
  m_ [(s_ "traits", m_ [(s_ "paged", m_ [])]); (s_ "schemas", m_ [(s_ "m", good_type)]); (Scal TFloat "0.5", s_ "half"); (s_ "usage", s_ "u"); (s_ "annotationTypes", m_ [])].
Definition bad_lib : node := m_ [(s_ "annotationTypes", m_ [(s_ "a", m_ [])]); (s_ "a", s_ "b")].

Example C69_library_case :
  @tame_floats toy /\
  (exists a n', lib_unmarshal good_lib new_library = Ok a /\ lib_marshal a = Ok n' /\ lib_unmarshal n' new_library = Ok a /\ n' <> good_lib) /\
  (exists a, lib_unmarshal bad_lib new_library = Ok a /\ ~ settled_lib a).
Proof.
  split; [intros x; split; [discriminate|cbn; intuition discriminate]|]. split.
  - eexists. eexists. split; [vm_compute; reflexivity|]. split; [vm_compute; reflexivity|]. split; [vm_compute; reflexivity|discriminate].
  - eexists. split; [vm_compute; reflexivity|]. intros [S _]. vm_compute in S. discriminate S.
Qed.
