(** Property C77: what is saved alike is alike. *)
From Coq Require Import SpecFloat.
From Verif Require Import Base Num OMap OMapSpec Keys Yaml Values Assign Formats Meta Out Xml Example DataType Marshal Doc Api Library
  AssignProofs TypeFacts Fields FacetSpec Segs ExProofs Same ExRound WriteSpec RoundSpec RoundProofs Stable ApiFields ApiSpec ApiProofs LibProofs ApiRoundSpec
  Setters Live LiveSpec LiveSaveSpec LiveSave EditSpec EditSave IdemSpec Exact ApiExact Faithful.

(** Some float conversion, for the examples. *)
#[local] Instance toy : FloatIO := {
  float_of := fun _ s => if String.eqb s "0.5" then Some (S754_finite false 1 (-1)) else None;
  float_text := fun _ => (TFloat, "0.5")
}.
Local Notation s_ := str_node.
Local Notation m_ := (Map TMap).

(** ** C77, in full *)

(** Two documents that were loaded and are saved as the same document have the same answers from all getters. *)
Definition faithful_api (F : FloatIO) : Prop := forall n1 n2 a b n, api_unmarshal n1 new_api = Ok a -> api_unmarshal n2 new_api = Ok b ->
  api_marshal a = Ok n -> api_marshal b = Ok n -> same_api a b.
Definition faithful_library (F : FloatIO) : Prop := forall n1 n2 a b n, lib_unmarshal n1 new_library = Ok a -> lib_unmarshal n2 new_library = Ok b ->
  lib_marshal a = Ok n -> lib_marshal b = Ok n -> same_library a b.
Definition faithful_type (F : FloatIO) : Prop := forall n1 n2 a b n, hat n1 = Ok a -> hat n2 = Ok b -> to_yaml a = Ok n -> to_yaml b = Ok n -> same_type a b.

Definition page (s : string) : node := m_ [(s_ "title", s_ "T"); (s_ "documentation", Seq TSeq [m_ [(s_ "title", s_ s); (s_ "content", s_ "c")]])].
Definition with_xml (s : string) : node := m_ [(s_ "type", s_ "string"); (s_ "xml", m_ [(s_ "name", s_ s)])].

(** The pages of the documentation and XML settings are not saved. *)
Theorem C77_refuted (F : FloatIO) : ~ faithful_api F /\ ~ faithful_library F /\ ~ faithful_type F.
Proof.
  split; [|split]; intros H.
  - specialize (H (page "Home") (page "Away") _ _ _ eq_refl eq_refl eq_refl eq_refl ADocumentation). discriminate H.
  - specialize (H (m_ [(s_ "types", m_ [(s_ "A", with_xml "x")])]) (m_ [(s_ "types", m_ [(s_ "A", with_xml "y")])]) _ _ _ eq_refl eq_refl eq_refl eq_refl LTypes).
    cbn in H. inversion H as [|? ? ? ? [_ S] _]; subst. inversion S as [? ? _ G _]; subst. destruct (G FXml _ eq_refl) as [w [E R]]. injection E as <-. inversion R.
  - specialize (H (with_xml "x") (with_xml "y") _ _ _ eq_refl eq_refl eq_refl eq_refl). inversion H as [? ? _ G _]; subst.
    destruct (G FXml _ eq_refl) as [w [E R]]. injection E as <-. inversion R.
Qed.
Print Assumptions C77_refuted.

(** ** What holds *)

(** Of all documents, libraries and types, loaded or built, that come back from what they are saved as (C31, C50, C54). *)
Theorem C77_api_partial (F : FloatIO) a b n : api_returns a -> api_returns b -> api_marshal a = Ok n -> api_marshal b = Ok n -> same_api a b.
Proof. intros A B. exact (alike_api a b n (returns_survives (OApi a) A) (returns_survives (OApi b) B)). Qed.
Print Assumptions C77_api_partial.

Theorem C77_library_partial (F : FloatIO) a b n : lib_returns a -> lib_returns b -> lib_marshal a = Ok n -> lib_marshal b = Ok n -> same_library a b.
Proof. intros A B. exact (alike_library a b n (returns_survives (OLib a) A) (returns_survives (OLib b) B)). Qed.
Print Assumptions C77_library_partial.

Theorem C77_type_partial (F : FloatIO) a b n : type_returns a -> type_returns b -> to_yaml a = Ok n -> to_yaml b = Ok n -> same_type a b.
Proof. intros A B. exact (alike_type a b n (returns_survives (OType a) A) (returns_survives (OType b) B)). Qed.
Print Assumptions C77_type_partial.

(** Of all loaded documents that survive (C69): they are equal. *)
Theorem C77_loaded_partial (F : FloatIO) :
  (forall n1 n2 a b n, api_unmarshal n1 new_api = Ok a -> api_unmarshal n2 new_api = Ok b -> settled_api a -> settled_api b ->
     api_marshal a = Ok n -> api_marshal b = Ok n -> a = b) /\
  (tame_floats -> forall n1 n2 a b n, lib_unmarshal n1 new_library = Ok a -> lib_unmarshal n2 new_library = Ok b -> settled_lib a -> settled_lib b ->
     lib_marshal a = Ok n -> lib_marshal b = Ok n -> a = b) /\
  (forall n1 n2 a b n, hat n1 = Ok a -> hat n2 = Ok b -> settled a -> settled b -> to_yaml a = Ok n -> to_yaml b = Ok n -> a = b).
Proof.
  split; [|split].
  - intros n1 n2 a b n A B Sa Sb Wa Wb. apply (api_comes_back n1 a A) in Sa as [x [X1 X2]]. apply (api_comes_back n2 b B) in Sb as [y [Y1 Y2]]. congruence.
  - intros T n1 n2 a b n A B Sa Sb Wa Wb. apply (lib_comes_back n1 a T A) in Sa as [x [X1 X2]]. apply (lib_comes_back n2 b T B) in Sb as [y [Y1 Y2]]. congruence.
  - intros n1 n2 a b n A B Sa Sb Wa Wb. apply (comes_back n1 a A) in Sa as [x [X1 X2]]. apply (comes_back n2 b B) in Sb as [y [Y1 Y2]]. congruence.
Qed.
Print Assumptions C77_loaded_partial.

(** Two ways to one document: a list of allowed values that a program sets, and the same one loaded.  They differ as Go values. *)
Definition built : dtype := type_apply (TSetEnum (Some [GStr "x"])) (new_type TyAny).
Definition from_file : node := m_ [(s_ "type", s_ "any"); (s_ "enum", Seq TSeq [s_ "x"])].
Example C77_case : exists loaded n, hat from_file = Ok loaded /\ loaded <> built /\ type_returns built /\ type_returns loaded /\ to_yaml built = Ok n /\ to_yaml loaded = Ok n.
Proof.
  eexists. eexists. split; [vm_compute; reflexivity|]. split; [discriminate|]. split; [|split; [|split; [vm_compute; reflexivity|]]].
  - apply apply_returns; [apply (new_returns TyAny "any"); intros _; apply named_kind_of; reflexivity|]. split; [reflexivity|]. split; [|exact I].
    apply ret_vals. intros v [<-|[]]. exists (s_ "x"). reflexivity.
  - apply (settled_returns _) with (n := from_file); [|vm_compute; reflexivity]. apply (comes_back from_file); [vm_compute; reflexivity|]. eexists. split; [vm_compute; reflexivity|]. vm_compute. reflexivity.
  - vm_compute. reflexivity.
Qed.
