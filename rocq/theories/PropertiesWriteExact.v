(** C33, C34 and C49 without restriction: what is written of any object, also if two things in it have the same key. *)
From Coq Require Import SpecFloat.
From Verif Require Import Base Num OMap OMapSpec Keys Yaml Values Assign Formats Meta Out Xml Example DataType Marshal TypeFacts Fields FieldProofs FacetSpec FacetProofs DocProofs Segs TypeSegs WriteSpec Doc Api Library ApiSpec WriteExact.

(** Some float conversion, for the examples. *)
#[local] Instance toy : FloatIO := {
  float_of := fun _ s => if String.eqb s "0.5" then Some (S754_finite false 1 (-1)) else None;
  float_text := fun _ => (TFloat, "0.5")
}.
Local Notation s_ := str_node.

(** C33, exactly.  [proper_type d] is so of every definition by construction (facets of its kind, no negative minimum length); [type_keys d] is the list of the
    keys that the fields of [d] which are not at their default, its extra facets and its annotations have.
    - With nothing but a type, the scalar is written.
    - With any key other than `type`, a mapping is written if anything is.
    - What is left are definitions with nothing but a type and an extra facet or annotation, called `type`: of those its value is written alone. *)
Theorem C33_exact (F : FloatIO) d : proper_type d ->
  (only_type d -> to_yaml d = Ok (match d_kind d with TyInclude => Scal TInclude (d_type d) | _ => Scal TStr (d_type d) end)) /\
  ((exists k, In k (type_keys d) /\ k <> KStr "type") -> ~ only_type d /\ forall n, to_yaml d = Ok n -> exists l, n = Map TMap l) /\
  (~ only_type d -> (forall k, In k (type_keys d) -> k = KStr "type") ->
   (exists v, In (KStr "type", v) (ents (d_extra d)) /\ to_yaml d = to_node v) \/ (exists m, In ("type", m) (anns_of d) /\ to_yaml d = untyped_to_yaml m)).
Proof.
  intros Hp. pose proof (only_type_keys d Hp) as O. split; [|split].
  - intros Ho. apply (proj1 O) in Ho. destruct (type_short d Hp) as [r [_ [E R]]]; [rewrite Ho; intros k [<-|[]]; reflexivity|]. rewrite E, R by (rewrite Ho; reflexivity). reflexivity.
  - intros H. split; [|intros n W; destruct (type_exact d n Hp H W) as [l [E _]]; eauto]. intros Ho. apply (proj1 O) in Ho. destruct H as [k [I N]]. rewrite Ho in I. destruct I as [<-|[]]. congruence.
  - intros No H. exact (hidden_type d Hp No H).
Qed.
Print Assumptions C33_exact.
Example C33_exact_case :
  let d := setf FExtra (VExtra (mkMap [(KStr "type", GStr "integer")] true)) (new_type TyString) in
  proper_type d /\ type_keys d = [KStr "type"; KStr "type"] /\ to_yaml d = Ok (s_ "integer").
Proof. split; [split; [reflexivity|intros z H; injection H as <-; vm_compute; discriminate]|split; reflexivity]. Qed.

(** C34, exactly: of the keys of a definition that are equal for Go, the last one is written, each once and in the order of the kind.  All of them are written, as C34 says,
    if and only if they are all different. *)
Theorem C34_exact (F : FloatIO) d n : proper_type d -> (exists k, In k (type_keys d) /\ k <> KStr "type") -> to_yaml d = Ok n ->
  exists l, n = Map TMap l /\ has_keys (last_keys (type_keys d)) l /\ (has_keys (type_keys d) l <-> apart (type_keys d) = true).
Proof. intros Hp H W. destruct (type_exact d n Hp H W) as [l [E K]]. exists l. split; [exact E|split; [exact K|]]. apply keys_iff. exact K. Qed.
Print Assumptions C34_exact.
Example C34_exact_case :
  let d := setf FPattern (VOptStr (Some "p")) (setf FExtra (VExtra (mkMap [(KStr "pattern", GStr "q"); (KStr "a", GStr "b")] true)) (new_type TyString)) in
  proper_type d /\ type_keys d = [KStr "type"; KStr "pattern"; KStr "a"; KStr "pattern"] /\ last_keys (type_keys d) = [KStr "type"; KStr "a"; KStr "pattern"] /\
  to_yaml d = Ok (Map TMap [(s_ "type", s_ "string"); (s_ "a", s_ "b"); (s_ "pattern", s_ "p")]).
Proof. split; [split; [reflexivity|intros z H; injection H as <-; vm_compute; discriminate]|split; [|split]; reflexivity]. Qed.

(** C49, exactly, and the same of libraries: every API document that is written at all is written as a mapping with these keys. *)
Theorem C49_exact (F : FloatIO) a n : api_marshal a = Ok n ->
  exists l, n = Map TMap l /\ has_keys (last_keys (api_keys a)) l /\ (has_keys (api_keys a) l <-> apart (api_keys a) = true).
Proof. intros W. destruct (api_exact a n W) as [l [E K]]. exists l. split; [exact E|split; [exact K|]]. apply keys_iff. exact K. Qed.
Print Assumptions C49_exact.
Theorem C49_library_exact (F : FloatIO) a n : lib_marshal a = Ok n ->
  exists l, n = Map TMap l /\ has_keys (last_keys (lib_keys a)) l /\ (has_keys (lib_keys a) l <-> apart (lib_keys a) = true).
Proof. intros W. destruct (lib_exact a n W) as [l [E K]]. exists l. split; [exact E|split; [exact K|]]. apply keys_iff. exact K. Qed.
Print Assumptions C49_library_exact.
Example C49_exact_case :
  let a := a_set_extra (mkMap [(KStr "title", GStr "x")] true) (a_set_version (Some "v") (a_set_title "t" new_api)) in
  api_keys a = [KStr "title"; KStr "version"; KStr "title"] /\ last_keys (api_keys a) = [KStr "version"; KStr "title"] /\
  api_marshal a = Ok (Map TMap [(s_ "version", s_ "v"); (s_ "title", s_ "x")]).
Proof. split; [|split]; reflexivity. Qed.
