(** Property C88: formatting again and again comes to rest. *)
From Coq Require Import SpecFloat.
From Verif Require Import Base Num OMap OMapSpec Keys Yaml Values Assign Formats Meta Out Xml Example DataType Marshal Doc Api Library
  ApiSpec IdemSpec Sizes Settle SettleProofs SettleDocs.

(** Some float conversion, for the examples: two numbers, of which one is written as an integer. *)
#[local] Instance whole : FloatIO := {
  float_of := fun t s =>
    if String.eqb s "0.5" then Some (S754_finite false 1 (-1))
    else if (String.eqb s "5.0" || String.eqb s "5")%bool then Some (S754_finite false 5 0)
    else None;
  float_text := fun x => match x with S754_finite _ 5 _ => (TInt, "5") | _ => (TFloat, "0.5") end
}.
Local Notation s_ := str_node.
Local Notation m_ := (Map TMap).

Example C88_floats : floats_return.
Proof.
  intros t s x H. cbn in H. destruct (String.eqb s "0.5").
  - injection H as <-. split; [reflexivity|]. cbn. intuition discriminate.
  - destruct (String.eqb s "5.0" || String.eqb s "5")%bool; [|discriminate H]. injection H as <-. split; [reflexivity|]. cbn. intuition discriminate.
Qed.

(** ** C88: type definitions *)

(** After as many rounds as the document has nodes, and one, nothing changes any more: every further round gives the same document,
    or the failure stays. *)
Theorem C88_type : forall F : FloatIO, floats_return -> forall n,
  (forall k, (nodes n + 1 <= k)%nat -> rounds format_type k n = rounds format_type (nodes n + 1) n) /\
  (forall m, rounds format_type (nodes n + 1) n = Ok m -> format_type m = Ok m).
Proof. intros F R n. split; [intros k; exact (types_settle R n k)|exact (settled_fixed format_type 1 (types_settle R) n)]. Qed.
Print Assumptions C88_type.

(** ** C88: whole documents *)
Theorem C88_api : forall F : FloatIO, floats_return -> forall n,
  (forall k, (nodes n + 1 <= k)%nat -> rounds format_api k n = rounds format_api (nodes n + 1) n) /\
  (forall m, rounds format_api (nodes n + 1) n = Ok m -> format_api m = Ok m).
Proof. intros F R n. split; [intros k; exact (apis_settle R n k)|exact (settled_fixed format_api 1 (apis_settle R) n)]. Qed.
Print Assumptions C88_api.

Theorem C88_library : forall F : FloatIO, floats_return -> forall n,
  (forall k, (nodes n + 1 <= k)%nat -> rounds format_library k n = rounds format_library (nodes n + 1) n) /\
  (forall m, rounds format_library (nodes n + 1) n = Ok m -> format_library m = Ok m).
Proof. intros F R n. split; [intros k; exact (libraries_settle R n k)|exact (settled_fixed format_library 1 (libraries_settle R) n)]. Qed.
Print Assumptions C88_library.

(** ** No number of rounds does for all documents *)
Theorem C88_unbounded : forall (F : FloatIO) k,
  (exists n a b, rounds format_type k n = Ok a /\ rounds format_type (k + 1) n = Ok b /\ a <> b) /\
  (exists n a b, rounds format_api k n = Ok a /\ rounds format_api (k + 1) n = Ok b /\ a <> b) /\
  (exists n a b, rounds format_library k n = Ok a /\ rounds format_library (k + 1) n = Ok b /\ a <> b).
Proof. intros F k. split; [exact (types_unbounded k)|]. split; [exact (apis_unbounded k)|exact (libraries_unbounded k)]. Qed.
Print Assumptions C88_unbounded.

(** A type given twice, inside a type given twice: three documents, one after the other. *)
Example C88_type_case :
  let t x := m_ [(s_ "type", s_ "string"); (s_ "schema", s_ "array"); (s_ "items", x)] in
  let a x := m_ [(s_ "type", s_ "array"); (s_ "items", x)] in
  rounds format_type 1 (t (t (s_ "date-only"))) = Ok (a (t (s_ "date-only"))) /\
  rounds format_type 2 (t (t (s_ "date-only"))) = Ok (a (a (s_ "date-only"))) /\
  rounds format_type 3 (t (t (s_ "date-only"))) = Ok (a (a (s_ "date-only"))).
Proof. vm_compute. repeat split. Qed.

(** A number that is written as an integer becomes a key that is there already: the second round drops it. *)
Example C88_api_case :
  let n := m_ [(s_ "title", s_ "x"); (Scal TFloat "5.0", s_ "a"); (Scal TInt "5", s_ "b")] in
  rounds format_api 1 n = Ok (m_ [(s_ "title", s_ "x"); (Scal TInt "5", s_ "a"); (Scal TInt "5", s_ "b")]) /\
  rounds format_api 2 n = Ok (m_ [(s_ "title", s_ "x"); (Scal TInt "5", s_ "b")]) /\
  rounds format_api 3 n = Ok (m_ [(s_ "title", s_ "x"); (Scal TInt "5", s_ "b")]).
Proof. vm_compute. repeat split. Qed.

(** An annotation type of a library becomes a section of its own, and the next round cannot read it. *)
Example C88_library_case :
  let n := m_ [(s_ "annotationTypes", m_ [(s_ "types", m_ [(s_ "a", s_ "b")])])] in
  match rounds format_library 1 n with Ok (Map _ [(Scal TStr k, Seq _ _)]) => k = "types" | _ => False end /\
  rounds format_library 2 n = Err /\ rounds format_library 9 n = Err /\
  rounds format_library 3 (m_ [(s_ "types", m_ [(s_ "T", s_ "string")])]) = Ok (m_ [(s_ "types", m_ [(s_ "T", s_ "string")])]).
Proof. vm_compute. repeat split. Qed.
