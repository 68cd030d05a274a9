(** Property C70: which documents load, which are rejected and which crash the loader is known exactly. *)
From Coq Require Import SpecFloat.
From Verif Require Import Base Num OMap OMapSpec Keys Yaml Values Assign Formats Meta Out Xml Example DataType Doc Api Library
  TypeFacts Fields FacetSpec DocProofs GrammarSpec Grammar.

(** Some float conversion, for the examples. *)
#[local] Instance toy : FloatIO := {
  float_of := fun _ s => if String.eqb s "0.5" then Some (S754_finite false 1 (-1)) else None;
  float_text := fun _ => (TFloat, "0.5")
}.
Local Notation s_ := str_node.
Local Notation m_ := (Map TMap).

(** ** C70: type definitions *)

Theorem C70_type_loads (F : FloatIO) n : (exists d, hat n = Ok d) <-> loads n.
Proof. exact (proj1 (type_verdict n)). Qed.
Print Assumptions C70_type_loads.

Theorem C70_type_panics (F : FloatIO) n : hat n = Panic <-> dies n.
Proof. exact (proj2 (type_verdict n)). Qed.
Print Assumptions C70_type_panics.

Theorem C70_type_rejected (F : FloatIO) n : hat n = Err <-> ~ loads n /\ ~ dies n.
Proof. exact (verdict_rejected _ _ _ (type_verdict n)). Qed.
Print Assumptions C70_type_rejected.

(** An object with a property that is an array and one with an example; the same with a bound that is no number, and with an empty key behind
    things that load; with a nil property; and with the empty key behind something that does not. *)
Definition typ (bound : node) (extra : list (node * node)) : node :=
  m_ [(s_ "type", s_ "object");
      (s_ "properties", m_ [(s_ "a", m_ [(s_ "type", s_ "array"); (s_ "items", s_ "string"); (s_ "minItems", bound)]);
                            (s_ "b", m_ [(s_ "type", s_ "number"); (s_ "example", m_ ((s_ "value", Scal TFloat "0.5") :: extra))])])].

Example C70_type_case :
  loads (typ (Scal TInt "1") []) /\
  dies (typ (Scal TInt "1") [(s_ "", s_ "x")]) /\
  dies (m_ [(s_ "properties", m_ [(s_ "a", s_ "nil")])]) /\
  (~ loads (typ (s_ "one") []) /\ ~ dies (typ (s_ "one") [(s_ "", s_ "x")])).
Proof.
  split; [apply C70_type_loads; eexists; vm_compute; reflexivity|]. split; [apply C70_type_panics; vm_compute; reflexivity|].
  split; [apply C70_type_panics; vm_compute; reflexivity|]. split.
  - apply C70_type_rejected. vm_compute. reflexivity.
  - apply C70_type_rejected. vm_compute. reflexivity.
Qed.

(** The judgement by hand, not by running the loader. *)
Example C70_loads_case : loads (m_ [(s_ "items", s_ "string"); (s_ "minItems", Scal TInt "1"); (s_ "x", Seq TSeq [])]).
Proof.
  assert (S : forall s, a_string (s_ s)) by (intros s; exists s; split; reflexivity).
  eapply (loads_map _ _ TyArray); [discriminate| |].
  - apply by_items.
    + intros e [<-|[<-|[<-|[]]]]; split; discriminate.
    + intros [e [[<-|[<-|[<-|[]]]] E]]; discriminate E.
    + eexists. split; [left; reflexivity|]. reflexivity.
  - intros e [<-|[<-|[<-|[]]]].
    + apply entry_items; [cbn; tauto|reflexivity|]. apply loads_string, S.
    + apply (entry_plain _ _ _ FMinItems); [cbn; tauto|reflexivity|]. exists 1%Z. split; [exists "1"; split; reflexivity|split; discriminate].
    + apply entry_extra; [reflexivity|]. intros _ [_ X]. discriminate X.
Qed.

(** ** C70: API documents *)

Theorem C70_api_loads (F : FloatIO) n a : (exists a', api_unmarshal n a = Ok a') <-> api_loads n.
Proof. exact (proj1 (api_verdict n a)). Qed.
Print Assumptions C70_api_loads.

Theorem C70_api_panics (F : FloatIO) n a : api_unmarshal n a = Panic <-> api_dies n.
Proof. exact (proj2 (api_verdict n a)). Qed.
Print Assumptions C70_api_panics.

Theorem C70_api_rejected (F : FloatIO) n a : api_unmarshal n a = Err <-> ~ api_loads n /\ ~ api_dies n.
Proof. exact (verdict_rejected _ _ _ (api_verdict n a)). Qed.
Print Assumptions C70_api_rejected.

Definition doc_ (t : node) (key : string) : node :=
  m_ [(s_ "title", s_ "t"); (s_ "mediaType", Seq TSeq [s_ "a/b"]); (s_ "documentation", Seq TSeq [m_ [(s_ "title", Seq TSeq [])]]);
      (s_ "types", m_ [(s_ "T", t)]); (s_ "/r", s_ "anything"); (s_ key, m_ [])].

Example C70_api_case :
  api_loads (doc_ (typ (Scal TInt "1") []) "(a)") /\ api_dies (doc_ (typ (Scal TInt "1") [(s_ "", s_ "x")]) "(a)") /\
  api_dies (doc_ (s_ "string") "") /\ (~ api_loads (doc_ (s_ "string") "version") /\ ~ api_dies (doc_ (s_ "string") "version")).
Proof.
  split; [apply (C70_api_loads toy _ new_api); eexists; vm_compute; reflexivity|]. split; [apply (C70_api_panics toy _ new_api); vm_compute; reflexivity|].
  split; [apply (C70_api_panics toy _ new_api); vm_compute; reflexivity|]. apply (C70_api_rejected toy _ new_api). vm_compute. reflexivity.
Qed.

(** ** C70: libraries *)

Theorem C70_library_loads (F : FloatIO) n l : (exists l', lib_unmarshal n l = Ok l') <-> lib_loads n.
Proof. exact (proj1 (lib_verdict n l)). Qed.
Print Assumptions C70_library_loads.

Theorem C70_library_panics (F : FloatIO) n l : lib_unmarshal n l = Panic <-> lib_dies n.
Proof. exact (proj2 (lib_verdict n l)). Qed.
Print Assumptions C70_library_panics.

Theorem C70_library_rejected (F : FloatIO) n l : lib_unmarshal n l = Err <-> ~ lib_loads n /\ ~ lib_dies n.
Proof. exact (verdict_rejected _ _ _ (lib_verdict n l)). Qed.
Print Assumptions C70_library_rejected.

Definition lib_ (t : node) (key : string) : node :=
  m_ [(s_ "usage", s_ "u"); (s_ "annotationTypes", m_ [(s_ "a", m_ [])]); (s_ "types", m_ [(s_ "T", t)]); (Scal TInt "7", s_ "x"); (s_ key, m_ [])].

Example C70_library_case :
  lib_loads (lib_ (typ (Scal TInt "1") []) "(a)") /\ lib_dies (lib_ (typ (Scal TInt "1") [(s_ "", s_ "x")]) "(a)") /\
  lib_dies (lib_ (s_ "string") "") /\ (~ lib_loads (lib_ (s_ "string") "usage") /\ ~ lib_dies (lib_ (s_ "string") "usage")).
Proof.
  split; [apply (C70_library_loads toy _ new_library); eexists; vm_compute; reflexivity|].
  split; [apply (C70_library_panics toy _ new_library); vm_compute; reflexivity|].
  split; [apply (C70_library_panics toy _ new_library); vm_compute; reflexivity|]. apply (C70_library_rejected toy _ new_library). vm_compute. reflexivity.
Qed.
