(** Property C65: load, edit, save and load again. *)
From Coq Require Import SpecFloat.
From Verif Require Import Base Num OMap OMapSpec Keys Yaml Values Assign Formats Meta Out Xml Example DataType Marshal Doc Api Library
  AssignProofs TypeFacts Fields FacetSpec Segs ExProofs Same ExRound WriteSpec RoundSpec RoundProofs Stable ApiFields ApiSpec ApiRoundSpec Parts ApiOrder LibOrder Setters SetterSpec EditSpec EditSave.

(** Some float conversion, for the examples. *)
#[local] Instance toy : FloatIO := {
  float_of := fun _ s => if String.eqb s "0.5" then Some (S754_finite false 1 (-1)) else None;
  float_text := fun _ => (TFloat, "0.5")
}.

Local Notation s_ := str_node.
Local Notation m_ := (Map TMap).

(** ** C65: type definitions *)

(** C65 for type definitions, in full: a definition is loaded, any setters it has are called, it is saved and loaded; then each getter [f] answers what the last
    setter of [f] said, and what it answered before if there was none. *)
Definition types_load_edit_save (F : FloatIO) : Prop :=
  forall n d ops, hat n = Ok d -> Forall (fun op => has_setter (d_kind d) op = true) ops ->
    exists n' d', to_yaml (run type_apply ops d) = Ok n' /\ hat n' = Ok d' /\
      forall f, exists v, last_setter (says_type (d_kind d) f) ops (getf f d) v /\ same_answer (d_kind d) v (getf f d').

(** The code does not do that: the default that was set is an extra facet after loading. *)
Theorem C65_types_refuted (F : FloatIO) : ~ types_load_edit_save F.
Proof.
  intros H. destruct (H (s_ "string") (new_type TyString) [TSetDefault (Some (GStr "x"))] eq_refl) as [n [d [W [R A]]]]; [repeat constructor|].
  cbn in W. injection W as <-. cbn in R. injection R as <-. destruct (A FDefault) as [v [L S]]. cbn in S.
  destruct L as [[pre [op [post [E [L N]]]]]|[N _]].
  - destruct pre as [|p [|q r]]; try discriminate E. injection E as <- <-. cbn in L. injection L as <-. inversion S; discriminate.
  - inversion N as [|x l N1 N2]. discriminate N1.
Qed.
Print Assumptions C65_types_refuted.

(** What holds: the definition is [settled] when it is loaded (see C32), and the setters get arguments that come back ([type_saves]). *)
Theorem C65_types_partial (F : FloatIO) n d ops : hat n = Ok d -> settled d -> Forall (type_saves (d_kind d)) ops ->
  exists n' d', to_yaml (run type_apply ops d) = Ok n' /\ hat n' = Ok d' /\ d_kind d' = d_kind d /\
    forall f, exists v, last_setter (says_type (d_kind d) f) ops (getf f d) v /\ same_answer (d_kind d) v (getf f d').
Proof. exact (load_edit_save n d ops). Qed.
Print Assumptions C65_types_partial.

(** The same for a definition that was built. *)
Theorem C65_types_built_partial (F : FloatIO) d ops : type_returns d -> Forall (type_saves (d_kind d)) ops ->
  exists n d', to_yaml (run type_apply ops d) = Ok n /\ hat n = Ok d' /\ d_kind d' = d_kind d /\
    forall f, exists v, last_setter (says_type (d_kind d) f) ops (getf f d) v /\ same_answer (d_kind d) v (getf f d').
Proof. exact (edit_save d ops). Qed.
Print Assumptions C65_types_built_partial.

Definition edited_doc : node := m_ [(s_ "type", s_ "object"); (s_ "x", s_ "y"); (s_ "properties", m_ [(s_ "p", s_ "integer")]); (s_ "description", s_ "old")].
Definition edits : list type_op :=
  [TSetDescription "new"; TSetMinProperties 3; TSetDiscriminator "k"; TUnsetDiscriminator; TSetAnnotations (Some (mkMap [("(a)", mkMap [("b", GStr "c")] false)] true));
   TSetRequired false; TUnsetProperties; TSetProperties (Some (mkMap [("q", new_type TyString)] false))].
Example C65_types_case : exists d, hat edited_doc = Ok d /\ settled d /\ Forall (type_saves (d_kind d)) edits /\
  exists n' d', to_yaml (run type_apply edits d) = Ok n' /\ hat n' = Ok d' /\ getf FDescr d' = Some (VOptStr (Some "new")) /\
    getf FMinProps d' = Some (VOptInt (Some 3%Z)) /\ extra_keys d' = [KStr "x"].
Proof.
  eexists. split; [reflexivity|]. split; [|split; [|do 2 eexists; repeat split; reflexivity]].
  - constructor; cbn; try (intros; discriminate); try tauto; try (intros m E; injection E as <-; reflexivity).
    + intros m s e E. injection E as <-. intros [].
    + intros f z [E|E]; destruct f; cbn in E; try discriminate E; injection E as <-; lia.
    + intros f x E. destruct f; discriminate E.
    + intros _ s [E|[]]. injection E as <-. split; [discriminate|reflexivity].
    + intros _. apply named_kind_of. reflexivity.
    + intros m s t E. injection E as <-. intros [E|[]]. injection E as <- <-.
      constructor; cbn; try (intros; discriminate); try tauto; try (intros m E; injection E as <-; reflexivity).
      * intros m s e E. injection E as <-. intros [].
      * intros f z [E|E]; destruct f; cbn in E; try discriminate E; injection E as <-; lia.
      * intros f x E. destruct f; discriminate E.
      * intros _. apply named_kind_of. reflexivity.
  - unfold edits. repeat apply Forall_cons; [..|apply Forall_nil]; (split; [reflexivity|]); (split; [|try exact I]); cbn.
    + apply ret_optstr.
    + apply ret_optint. intros z E. injection E as <-. split; [lia|intros _; lia].
    + apply ret_optstr.
    + apply ret_optstr.
    + apply ret_anns. intros s a [E|[]]. injection E as <- <-. split; [reflexivity|].
      split; [reflexivity|]. repeat constructor; try (eexists; reflexivity); intros [].
    + repeat constructor. intros [].
    + apply ret_bool.
    + apply ret_types; [intros C; destruct (C eq_refl)|constructor|intros s t []].
    + apply ret_types; [intros _; reflexivity|repeat constructor; intros []|].
      intros s t [E|[]]. injection E as <- <-. split; [|split; discriminate].
      apply (new_returns TyString "string"). intros _. apply named_kind_of. reflexivity.
Qed.

(** ** C65: API documents *)

Definition api_docs_load_edit_save (F : FloatIO) : Prop :=
  forall n a ops, api_unmarshal n new_api = Ok a ->
    exists n' a', api_marshal (run api_apply ops a) = Ok n' /\ api_unmarshal n' new_api = Ok a' /\
      forall f, exists v, last_setter (says_api f) ops (aget f a) v /\ same_afield f v (aget f a').

(** The code does not do that: documentation that was set comes back empty. *)
Theorem C65_api_refuted (F : FloatIO) : ~ api_docs_load_edit_save F.
Proof.
  intros H. destruct (H (m_ [(s_ "title", s_ "t")]) _ [ASetDocumentation (Some [mkDoc "u" "c" (mkMap [] false)])] eq_refl) as [n [d [W [R A]]]].
  cbn in W. injection W as <-. cbn in R. injection R as <-. destruct (A ADocumentation) as [v [L S]]. cbn in S.
  destruct L as [[pre [op [post [E [L N]]]]]|[N _]].
  - destruct pre as [|p [|q r]]; try discriminate E. injection E as <- <-. cbn in L. injection L as <-. discriminate S.
  - inversion N as [|x l N1 N2]. discriminate N1.
Qed.
Print Assumptions C65_api_refuted.

(** What holds: documents as in C50, and arguments that come back ([api_saves]). *)
Theorem C65_api_partial (F : FloatIO) t l a ops : api_unmarshal (Map t l) new_api = Ok a ->
  Forall (fun p => is_string (fst p) = true /\ is_annotation_key (fst p) = false /\ named_key "documentation" p = false) l ->
  Forall (fun e => settled (snd e)) (ents (a_types a)) -> Forall api_saves ops ->
  exists n a', api_marshal (run api_apply ops a) = Ok n /\ api_unmarshal n new_api = Ok a' /\
    forall f, exists v, last_setter (says_api f) ops (aget f a) v /\ same_afield f v (aget f a').
Proof. exact (api_load_edit_save t l a ops). Qed.
Print Assumptions C65_api_partial.

Theorem C65_api_built_partial (F : FloatIO) a ops : api_returns a -> Forall api_saves ops ->
  exists n a', api_marshal (run api_apply ops a) = Ok n /\ api_unmarshal n new_api = Ok a' /\
    forall f, exists v, last_setter (says_api f) ops (aget f a) v /\ same_afield f v (aget f a').
Proof. exact (api_edit_save a ops). Qed.
Print Assumptions C65_api_built_partial.

Definition edited_api : list (node * node) :=
  [(s_ "title", s_ "t"); (s_ "/r", m_ [(s_ "get", m_ [])]); (s_ "x", s_ "y"); (s_ "version", s_ "1"); (s_ "traits", m_ [(s_ "old", m_ [])])].
Definition api_edits : list api_op :=
  [ASetVersion "2"; ASetTraits (Some (mkMap [("new", GNode (m_ []))] false)); AUnsetBaseURI; ASetTypes (Some (mkMap [("T", new_type TyString)] false));
   ASetAnnotations (Some (mkMap [("(a)", mkMap [("b", GStr "c")] false)] true)); ASetProtocols (Some ["HTTP"])].
Example C65_api_case : exists a, api_unmarshal (m_ edited_api) new_api = Ok a /\
  Forall (fun p => is_string (fst p) = true /\ is_annotation_key (fst p) = false /\ named_key "documentation" p = false) edited_api /\
  Forall (fun e => settled (snd e)) (ents (a_types a)) /\ Forall api_saves api_edits /\
  exists n a', api_marshal (run api_apply api_edits a) = Ok n /\ api_unmarshal n new_api = Ok a' /\
    a_version a' = Some "2" /\ ents (a_traits a') = [("new", GNode (m_ []))] /\ map fst (ents (a_resources a')) = ["/r"] /\ map fst (ents (a_annotations a')) = ["(a)"].
Proof.
  eexists. split; [reflexivity|]. split; [repeat constructor|]. split; [constructor|]. split.
  2:{ do 2 eexists. split; [vm_compute; reflexivity|]. split; [vm_compute; reflexivity|]. repeat split. }
  unfold api_edits. repeat apply Forall_cons; [..|apply Forall_nil]; cbn; try exact I.
  - split; [reflexivity|]. repeat constructor; try (intros []). eexists; reflexivity.
  - split; [reflexivity|]. split; [repeat constructor; intros []|]. constructor; [|constructor].
    apply (new_returns TyString "string"). intros _. apply named_kind_of. reflexivity.
  - split; [repeat constructor; intros []|]. constructor; [|constructor]. split; [reflexivity|].
    split; [reflexivity|]. repeat constructor; try (eexists; reflexivity); intros [].
Qed.

(** ** C65: libraries *)

Definition libraries_load_edit_save (F : FloatIO) : Prop :=
  forall n a ops, lib_unmarshal n new_library = Ok a ->
    exists n' a', lib_marshal (run lib_apply ops a) = Ok n' /\ lib_unmarshal n' new_library = Ok a' /\
      forall f, exists v, last_setter (says_lib f) ops (lget f a) v /\ same_lfield f v (lget f a').

(** The code does not do that: a library that was loaded with an annotation is saved as something that does not load. *)
Theorem C65_library_refuted (F : FloatIO) : ~ libraries_load_edit_save F.
Proof.
  intros H. destruct (H (m_ [(s_ "(a)", m_ [(s_ "b", s_ "c")])]) _ [LSetUsage "u"] eq_refl) as [n [d [W [R A]]]].
  cbn in W. injection W as <-. discriminate R.
Qed.
Print Assumptions C65_library_refuted.

(** What holds: libraries as in C54, and arguments that come back ([lib_saves]). *)
Theorem C65_library_partial (F : FloatIO) t l a ops : lib_unmarshal (Map t l) new_library = Ok a ->
  Forall (fun p => is_string (fst p) = true /\ is_annotation_key (fst p) = false /\ text_key "annotationTypes" p = false) l ->
  Forall (fun e => settled (snd e)) (ents (l_types a)) -> Forall lib_saves ops ->
  exists n a', lib_marshal (run lib_apply ops a) = Ok n /\ lib_unmarshal n new_library = Ok a' /\
    forall f, exists v, last_setter (says_lib f) ops (lget f a) v /\ same_lfield f v (lget f a').
Proof. exact (lib_load_edit_save t l a ops). Qed.
Print Assumptions C65_library_partial.

Theorem C65_library_built_partial (F : FloatIO) a ops : lib_returns a -> Forall lib_saves ops ->
  exists n a', lib_marshal (run lib_apply ops a) = Ok n /\ lib_unmarshal n new_library = Ok a' /\
    forall f, exists v, last_setter (says_lib f) ops (lget f a) v /\ same_lfield f v (lget f a').
Proof. exact (lib_edit_save a ops). Qed.
Print Assumptions C65_library_built_partial.

Definition edited_lib : list (node * node) := [(s_ "usage", s_ "old"); (s_ "x", s_ "y"); (s_ "uses", m_ [(s_ "k", s_ "f")])].
Definition lib_edits : list lib_op :=
  [LSetUsage "new"; LUnsetTraits; LSetSchemas (Some (mkMap [("T", new_type TyString)] false)); LSetAnnotations (Some (mkMap [("(a)", mkMap [("b", GStr "c")] false)] true))].
Example C65_library_case : exists a, lib_unmarshal (m_ edited_lib) new_library = Ok a /\
  Forall (fun p => is_string (fst p) = true /\ is_annotation_key (fst p) = false /\ text_key "annotationTypes" p = false) edited_lib /\
  Forall (fun e => settled (snd e)) (ents (l_types a)) /\ Forall lib_saves lib_edits /\
  exists n a', lib_marshal (run lib_apply lib_edits a) = Ok n /\ lib_unmarshal n new_library = Ok a' /\
    l_usage a' = Some "new" /\ ents (l_uses a') = [("k", "f")] /\ map fst (ents (l_types a')) = ["T"] /\ map fst (ents (l_annotations a')) = ["(a)"].
Proof.
  eexists. split; [reflexivity|]. split; [repeat constructor|]. split; [constructor|]. split.
  2:{ do 2 eexists. split; [vm_compute; reflexivity|]. split; [vm_compute; reflexivity|]. repeat split. }
  unfold lib_edits. repeat apply Forall_cons; [..|apply Forall_nil]; cbn; try exact I.
  - split; [reflexivity|]. split; [repeat constructor; intros []|]. constructor; [|constructor].
    apply (new_returns TyString "string"). intros _. apply named_kind_of. reflexivity.
  - split; [repeat constructor; intros []|]. constructor; [|constructor]. split; [reflexivity|].
    split; [reflexivity|]. repeat constructor; try (eexists; reflexivity); intros [].
Qed.
