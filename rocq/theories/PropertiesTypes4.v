(** Properties C29, C30, C31, C32, C41 and C42 for type definitions. *)
From Coq Require Import SpecFloat.
From Verif Require Import Base Num OMap OMapSpec Keys Yaml Values Assign Formats Meta Out Xml Example DataType Marshal
  AssignProofs TypeFacts Fields FieldProofs FacetSpec FacetProofs DocProofs Segs ExProofs Same ExRound WriteSpec WriteProofs ReadInv
  RoundSpec RoundProofs WasRead Writable Stable XmlProofs Lost Crash.

(** Some float conversion, for the examples. *)
#[local] Instance toy : FloatIO := {
  float_of := fun _ s => if String.eqb s "0.5" then Some (S754_finite false 1 (-1)) else None;
  float_text := fun _ => (TFloat, "0.5")
}.

Local Notation s_ := str_node.

(** ** C29 *)

(** C29 is false: an empty key, in the definition or in an example, and a property of type nil. *)
Theorem C29_never_panics_refuted (F : FloatIO) :
  hat (Map TMap [(s_ "", s_ "x")]) = Panic /\
  hat (Map TMap [(s_ "type", s_ "string"); (s_ "example", Map TMap [(s_ "", s_ "x")])]) = Panic /\
  hat (Map TMap [(s_ "properties", Map TMap [(s_ "p", s_ "nil")])]) = Panic /\
  hat (Map TMap [(s_ "properties", Map TMap [(s_ "p", Scal TInclude "p.raml")])]) = Panic.
Proof. repeat split. Qed.
Print Assumptions C29_never_panics_refuted.

(** What holds of C29: a type definition is read without a panic unless it has one of these at some depth ([crash]).  Missing: the
    documents with one of them; API documents and libraries are in PropertiesApi.v. *)
Theorem C29_types_partial (F : FloatIO) n : ~ crash n -> hat n <> Panic.
Proof. intros H E. exact (H (hat_crash n E)). Qed.
Print Assumptions C29_types_partial.
Example C29_case : ~ crash (Map TMap [(s_ "type", s_ "object"); (s_ "properties", Map TMap [(s_ "p", s_ "string"); (s_ "q", Map TMap [(s_ "items", s_ "nil")])])]).
Proof.
  assert (X : forall n t v, n = Scal t v -> ~ crash n).
  { intros n t v -> H. apply crash_map in H as [t' [l' E]]. discriminate E. }
  assert (Y : ~ crash (Map TMap [(s_ "items", s_ "nil")])).
  { intros H. inversion H as [n H1|n m H1 H2|n m e H1 H2 H3|n m H1 H2|n m p H1 H2 H3|n m p d H1 H2 H3 H4|n m a p H1 H2 H3 H4]; subst.
    - destruct H1 as [t0 [l0 [k0 [v0 [E [Hi [_ Hv]]]]]]]. injection E as <- <-. destruct Hi as [Hi|[]]. injection Hi as <- <-. discriminate Hv.
    - destruct H1 as [t0 [l0 [k0 [E [Hi Hv]]]]]. injection E as <- <-. destruct Hi as [Hi|[]]. injection Hi as <- <-. discriminate Hv.
    - destruct H1 as [t0 [l0 [k0 [E [Hi Hv]]]]]. injection E as <- <-. destruct Hi as [Hi|[]]. injection Hi as <- <-. discriminate Hv.
    - destruct H1 as [t0 [l0 [k0 [E [Hi Hv]]]]]. injection E as <- <-. destruct Hi as [Hi|[]]. injection Hi as <- <-. exact (X _ _ _ eq_refl H2).
    - destruct H1 as [t0 [l0 [k0 [E [Hi Hv]]]]]. injection E as <- <-. destruct Hi as [Hi|[]]. injection Hi as <- <-. discriminate Hv.
    - destruct H1 as [t0 [l0 [k0 [E [Hi Hv]]]]]. injection E as <- <-. destruct Hi as [Hi|[]]. injection Hi as <- <-. discriminate Hv.
    - destruct H1 as [t0 [l0 [k0 [E [Hi Hv]]]]]. injection E as <- <-. destruct Hi as [Hi|[]]. injection Hi as <- <-. discriminate Hv. }
  intros H. inversion H as [n H1|n m H1 H2|n m e H1 H2 H3|n m H1 H2|n m p H1 H2 H3|n m p d H1 H2 H3 H4|n m a p H1 H2 H3 H4]; subst.
  - destruct H1 as [t0 [l0 [k0 [v0 [E [Hi [_ Hv]]]]]]]. injection E as <- <-. destruct Hi as [Hi|[Hi|[]]]; injection Hi as <- <-; discriminate Hv.
  - destruct H1 as [t0 [l0 [k0 [E [Hi Hv]]]]]. injection E as <- <-. destruct Hi as [Hi|[Hi|[]]]; injection Hi as <- <-; discriminate Hv.
  - destruct H1 as [t0 [l0 [k0 [E [Hi Hv]]]]]. injection E as <- <-. destruct Hi as [Hi|[Hi|[]]]; injection Hi as <- <-; discriminate Hv.
  - destruct H1 as [t0 [l0 [k0 [E [Hi Hv]]]]]. injection E as <- <-. destruct Hi as [Hi|[Hi|[]]]; injection Hi as <- <-; discriminate Hv.
  - destruct H1 as [t0 [l0 [k0 [E [Hi Hv]]]]]. injection E as <- <-. destruct Hi as [Hi|[Hi|[]]]; injection Hi as <- <-; try discriminate Hv.
    destruct H2 as [t1 [l1 [k1 [E Hi]]]]. injection E as <- <-. destruct Hi as [Hi|[Hi|[]]]; injection Hi as <- <-; [exact (X _ _ _ eq_refl H3)|exact (Y H3)].
  - destruct H1 as [t0 [l0 [k0 [E [Hi Hv]]]]]. injection E as <- <-. destruct Hi as [Hi|[Hi|[]]]; injection Hi as <- <-; try discriminate Hv.
    destruct H2 as [t1 [l1 [k1 [E Hi]]]]. injection E as <- <-. destruct Hi as [Hi|[Hi|[]]]; injection Hi as <- <-; cbn in H3; injection H3 as <-; destruct H4; discriminate.
  - destruct H1 as [t0 [l0 [k0 [E [Hi Hv]]]]]. injection E as <- <-. destruct Hi as [Hi|[Hi|[]]]; injection Hi as <- <-; discriminate Hv.
Qed.

(** ** C30 *)

(** C30 for type definitions. *)
Theorem C30_types (F : FloatIO) n d : hat n = Ok d -> exists n', to_yaml d = Ok n'.
Proof. exact (read_writes n d). Qed.
Print Assumptions C30_types.
Example C30_case :
  exists d, hat (Map TMap [(s_ "type", s_ "object"); (s_ "(a)", Map TMap []); (s_ "xml", Map TMap []);
                           (s_ "properties", Map TMap [(s_ "p", Map TMap [(s_ "items", s_ "Cat|Dog"); (s_ "example", Seq TSeq [])])])]) = Ok d /\
            exists n', to_yaml d = Ok n'.
Proof. eexists. split; [reflexivity|]. eexists. reflexivity. Qed.

(** ** C31 *)

(** C31 is false: annotations (read or set), XML settings, and examples in the short form. *)
Theorem C31_round_trip_refuted (F : FloatIO) :
  (exists d n, hat (Map TMap [(s_ "type", s_ "string"); (s_ "(a)", Map TMap [(s_ "b", s_ "c")])]) = Ok d /\ to_yaml d = Ok n /\ hat n = Err) /\
  (exists d n d' x, getf FXml d = Some (VXml (Some x)) /\ xml_name x = Some "n" /\ to_yaml d = Ok n /\ hat n = Ok d' /\
     getf FXml d' = Some (VXml (Some new_xml))) /\
  (exists d n, hat (Map TMap [(s_ "type", s_ "string"); (s_ "example", s_ "x")]) = Ok d /\ to_yaml d = Ok n /\ hat n = Panic).
Proof.
  split; [|split].
  - eexists; eexists. split; [reflexivity|]. split; reflexivity.
  - exists (setf FXml (VXml (Some (mkXml None None (Some "n") None None []))) (new_type TyString)). eexists; eexists; eexists.
    split; [reflexivity|]. split; [reflexivity|]. split; [reflexivity|]. split; reflexivity.
  - eexists; eexists. split; [reflexivity|]. split; reflexivity.
Qed.
Print Assumptions C31_round_trip_refuted.

(** What holds of C31: every type definition, of every kind and depth, that is [type_returns] is written without an error and read
    back as the same type definition: the same kind, and for every getter the same answer.  Missing: what [type_returns] excludes
    (RoundSpec.v): a type string of another kind (C35), numbers outside int64, floats whose text does not mean them, values that cannot be converted,
    `default` (C27), short examples (C38), XML settings (C42), and maps that are written as ordered maps (C41). *)
Theorem C31_round_trip_partial (F : FloatIO) d : type_returns d ->
  exists n d', to_yaml d = Ok n /\ hat n = Ok d' /\ same_type d d'.
Proof. intros H. exact (proj1 (round_trip d H)). Qed.
Print Assumptions C31_round_trip_partial.
(** A type that was built, not read. *)
Example C31_case :
  let inner := setf FMinItems (VInt 2) (new_type TyArray) in
  let e := mkEx (Some "shown") None anew_unordered (Some (GStr "v")) true anew_unordered in
  let d := setf FProps (VTypes (mkMap [("a", setf FExample (VEx (Some e)) (new_type TyString)); ("b", inner)] false))
             (setf FAnns (VAnns (mkMap [("(x)", mkMap [("k", GInt 4)] false)] true)) (new_type TyObject)) in
  type_returns d /\ exists n, to_yaml d = Ok n /\ is_map n = true.
Proof.
  assert (N : forall k, k <> TyUnion -> k <> TyCustom -> k <> TyInclude -> type_returns (new_type k)).
  { intros k H1 H2 H3. replace (new_type k) with (set_schema (kind_name k) (new_type k)) by (destruct k; reflexivity).
    apply new_returns. intros _. apply named_kind_of. destruct k; congruence || reflexivity. }
  cbv zeta. split; [|eexists; split; reflexivity].
  assert (T : forall k, k <> TyUnion -> k <> TyCustom -> k <> TyInclude -> tidy (new_type k)).
  { intros k H1 H2 H3. destruct (N k H1 H2 H3). assumption. }
  assert (A : tidy (setf FAnns (VAnns (mkMap [("(x)", mkMap [("k", GInt 4)] false)] true)) (new_type TyObject))).
  { repeat split; try reflexivity; try (cbn; discriminate); try (cbn; tauto).
    - cbn. repeat constructor; cbn; tauto.
    - cbn in H |- *. intros [E|[]]. subst s. cbn in H. intuition discriminate. }
  apply set_returns; try discriminate.
  - apply set_returns; try discriminate; [apply N; discriminate|eexists; split; reflexivity|exact A|].
    apply ret_anns. intros s a [E|[]]. injection E as <- <-. split; [reflexivity|]. split; [reflexivity|].
    split; [repeat constructor; cbn; tauto|]. repeat constructor. eexists; reflexivity.
  - eexists; split; reflexivity.
  - apply tidy_set; try discriminate; [exact A|eexists; split; reflexivity].
  - apply ret_types; [intros _; reflexivity|repeat constructor; cbn; intuition discriminate|].
    intros s t [E|[E|[]]]; injection E as <- <-; (split; [|split; discriminate]).
    + apply (set_returns FExample (VEx (Some (mkEx (Some "shown") None anew_unordered (Some (GStr "v")) true anew_unordered))) (new_type TyString)); try discriminate; [apply N; discriminate|eexists; split; reflexivity| |].
      * apply tidy_set; try discriminate; [apply T; discriminate|eexists; split; reflexivity].
      * apply ret_ex. intros e0 E. injection E as <-. split; [reflexivity|]. split; [left; discriminate|].
        repeat split; try (cbn; tauto); try constructor; try (intros v E; injection E as <-; eexists; reflexivity).
    + apply (set_returns FMinItems (VInt 2) (new_type TyArray)); try discriminate; [apply N; discriminate|eexists; split; reflexivity| |].
      * apply tidy_set; try discriminate; [apply T; discriminate|eexists; split; reflexivity].
      * apply ret_int. lia.
Qed.

(** ** C32 *)

(** C32 is false, for the reasons of C31 and one more: a minimum below zero in the text is read as a huge number (C19), which is written as such and
    refused. *)
Theorem C32_stable_refuted (F : FloatIO) :
  (exists d n, hat (Map TMap [(s_ "type", s_ "string"); (s_ "example", s_ "x")]) = Ok d /\ to_yaml d = Ok n /\ hat n = Panic) /\
  (exists d n, hat (Map TMap [(s_ "type", s_ "string"); (s_ "minLength", Scal TInt "-1")]) = Ok d /\ to_yaml d = Ok n /\ hat n = Err) /\
  (exists d n d', hat (Map TMap [(s_ "type", s_ "string"); (s_ "xml", Map TMap [(s_ "name", s_ "x")])]) = Ok d /\ to_yaml d = Ok n /\
     hat n = Ok d' /\ d <> d').
Proof.
  split; [|split].
  - eexists; eexists. split; [reflexivity|]. split; reflexivity.
  - eexists; eexists. split; [reflexivity|]. split; reflexivity.
  - eexists; eexists; eexists. split; [reflexivity|]. split; [reflexivity|]. split; [reflexivity|]. intros E.
    apply (f_equal (getf FXml)) in E. vm_compute in E. discriminate E.
Qed.
Print Assumptions C32_stable_refuted.

(** What holds of C32: a document that is read as a [settled] type definition gives, after writing and reading, exactly that type definition, and writing that
    gives the same document again.  Missing: what [settled] excludes (Stable.v). *)
Theorem C32_stable_partial (F : FloatIO) n d : hat n = Ok d -> settled d ->
  exists n', to_yaml d = Ok n' /\ hat n' = Ok d.
Proof. exact (stable n d). Qed.
Print Assumptions C32_stable_partial.
Example C32_case :
  exists d, hat (Map TMap [(s_ "properties", Map TMap [(s_ "p", Map TMap [(s_ "type", s_ "integer"); (s_ "minimum", Scal TInt "-3"); (s_ "x", Seq TSeq [])])]);
                           (s_ "example", Map TMap [(s_ "displayName", s_ "e"); (s_ "value", Map TMap [(s_ "p", Scal TInt "4")])])]) = Ok d /\ settled d.
Proof.
  eexists. split; [reflexivity|].
  constructor.
  - cbn. intros m E. injection E as <-. reflexivity.
  - cbn. intros m E. injection E as <-. reflexivity.
  - cbn. intros x E. discriminate E.
  - cbn. intros e E. injection E as <-. split; [left; discriminate|]. split; [reflexivity|]. split; [intros x E; discriminate E|intros x v []].
  - cbn. intros m s e E. injection E as <-. intros [].
  - intros f z [E|E]; destruct f; discriminate E.
  - intros f x E; destruct f; discriminate E.
  - cbn. intros l x E. discriminate E.
  - cbn. intros _ s [].
  - intros _. apply named_kind_of. reflexivity.
  - discriminate.
  - cbn. intros t E. discriminate E.
  - cbn. intros m s t E. injection E as <-. intros [E|[]]. injection E as <- <-.
    constructor.
    + cbn. intros m E. injection E as <-. reflexivity.
    + cbn. intros m E. injection E as <-. reflexivity.
    + cbn. intros x E. discriminate E.
    + cbn. intros e E. discriminate E.
    + cbn. intros m s e E. injection E as <-. intros [].
    + intros f z [E|E]; destruct f; try discriminate E. cbn in E. injection E as <-. lia.
    + intros f x E; destruct f; discriminate E.
    + cbn. intros l x E. discriminate E.
    + cbn. intros _ s [E|[]]. injection E as <-. split; [discriminate|reflexivity].
    + intros _. apply named_kind_of. reflexivity.
    + discriminate.
    + cbn. intros t E. discriminate E.
    + cbn. intros m s t E. discriminate E.
Qed.

(** ** C41 *)

(** C41 is false, and not only for some: whatever annotations or facet definitions a type definition that was read has, after writing and reading there is an
    error, or a type definition of a kind without annotations and facet definitions. *)
Theorem C41_annotations_refuted (F : FloatIO) :
  (forall n d m n' d', hat n = Ok d -> tidy d -> getf FAnns d = Some (VAnns m) -> ents m <> [] -> to_yaml d = Ok n' -> hat n' = Ok d' ->
     getf FAnns d' = None) /\
  exists n d m n', hat n = Ok d /\ tidy d /\ getf FAnns d = Some (VAnns m) /\ ents m <> [] /\ to_yaml d = Ok n' /\ hat n' = Err.
Proof.
  split; [exact anns_lost|].
  pose (n := Map TMap [(s_ "type", s_ "string"); (s_ "(a)", Map TMap [(s_ "b", s_ "c")])]). exists n. eexists; eexists; eexists.
  split; [reflexivity|]. split; [|split; [reflexivity|split; [discriminate|split; reflexivity]]].
  apply (read_tidy_apart n); [reflexivity|]. cbn. tauto.
Qed.
Print Assumptions C41_annotations_refuted.
Theorem C41_facets_refuted (F : FloatIO) :
  (forall n d m n' d', hat n = Ok d -> tidy d -> getf FFacets d = Some (VFacets m) -> ents m <> [] -> to_yaml d = Ok n' -> hat n' = Ok d' ->
     getf FFacets d' = None) /\
  exists n d m n', hat n = Ok d /\ tidy d /\ getf FFacets d = Some (VFacets m) /\ ents m <> [] /\ to_yaml d = Ok n' /\ hat n' = Err.
Proof.
  split; [exact facets_lost|].
  pose (n := Map TMap [(s_ "type", s_ "string"); (s_ "facets", Map TMap [(s_ "a", Map TMap [(s_ "b", s_ "string")])])]). exists n. eexists; eexists; eexists.
  split; [reflexivity|]. split; [|split; [reflexivity|split; [discriminate|split; reflexivity]]].
  apply (read_tidy_apart n); [reflexivity|]. cbn. tauto.
Qed.
Print Assumptions C41_facets_refuted.

(** What holds of C41: annotations and facet definitions whose maps are written as maps, which are those that were made by the program with maps that do not ask for
    an ordered output, come back the same.  Missing: those that were read. *)
Theorem C41_survive_partial (F : FloatIO) d : type_returns d ->
  exists n d', to_yaml d = Ok n /\ hat n = Ok d' /\
    (forall m, getf FAnns d = Some (VAnns m) -> exists m', getf FAnns d' = Some (VAnns m') /\ (m' = m \/ same_map (same_map same_value) m m')) /\
    (forall m, getf FFacets d = Some (VFacets m) -> exists m', getf FFacets d' = Some (VFacets m') /\
       (m' = m \/ Forall2 (fun a b => fst a = fst b /\ Forall2 (fun c c' => fst c = fst c' /\ same_type (snd c) (snd c')) (ents (snd a)) (ents (snd b)))
         (ents m) (ents m'))).
Proof.
  intros H. destruct (proj1 (round_trip d H)) as [n [d' [W [R S]]]]. exists n, d'. split; [exact W|]. split; [exact R|].
  destruct S as [d d' K S _]. split; intros m G; destruct (S _ _ G) as [w [Gw Sw]]; inversion Sw; subst; eexists; (split; [exact Gw|]); auto.
Qed.
Print Assumptions C41_survive_partial.
(** A facet definition in maps that are written as maps. *)
Example C41_case :
  let m := mkMap [("f", mkMap [("a", new_type TyString)] false)] false in
  let d := setf FFacets (VFacets m) (new_type TyObject) in
  type_returns d /\ getf FFacets d = Some (VFacets m).
Proof.
  assert (N : forall k, k <> TyUnion -> k <> TyCustom -> k <> TyInclude -> type_returns (new_type k)).
  { intros k H1 H2 H3. replace (new_type k) with (set_schema (kind_name k) (new_type k)) by (destruct k; reflexivity).
    apply new_returns. intros _. apply named_kind_of. destruct k; congruence || reflexivity. }
  cbv zeta. split; [|reflexivity]. apply set_returns; try discriminate; [apply N; discriminate|eexists; split; reflexivity| |].
  - apply tidy_set; try discriminate; [|eexists; split; reflexivity].
    destruct (N TyObject); try discriminate. assumption.
  - apply ret_facets; [reflexivity|repeat constructor; cbn; tauto| |].
    + intros s m' [E|[]]. injection E as <- <-. split; [reflexivity|]. repeat constructor; cbn; tauto.
    + intros s m' s' t [E|[]]. injection E as <- <-. intros [E|[]]. injection E as <- <-. apply (N TyString); discriminate.
Qed.

(** ** C42 *)

(** C42 is false in both forms: the marshal function leaves out the settings it does not know; and a type writes an empty map for its settings, so that
    of no type definition that was read anything of them comes back. *)
Theorem C42_xml_refuted (F : FloatIO) :
  (exists n x n' x', xml_unmarshal n new_xml = Ok x /\ out_to_yaml (xml_marshal x []) = Ok n' /\ xml_unmarshal n' new_xml = Ok x' /\
     xml_extra x <> [] /\ xml_extra x' = []) /\
  (forall n d x n' d', hat n = Ok d -> tidy d -> getf FXml d = Some (VXml (Some x)) -> to_yaml d = Ok n' -> hat n' = Ok d' ->
     getf FXml d' = Some (VXml (Some new_xml)) \/ getf FXml d' = None) /\
  exists n d n' d' x, hat n = Ok d /\ tidy d /\ getf FXml d = Some (VXml (Some x)) /\ xml_name x = Some "n" /\ to_yaml d = Ok n' /\ hat n' = Ok d' /\
    getf FXml d' = Some (VXml (Some new_xml)).
Proof.
  split; [|split; [exact xml_lost|]].
  - exists (Map TMap [(s_ "k", s_ "v")]). eexists; eexists; eexists. repeat split. discriminate.
  - pose (n := Map TMap [(s_ "type", s_ "string"); (s_ "xml", Map TMap [(s_ "name", s_ "n")])]). exists n. eexists; eexists; eexists; eexists.
    split; [reflexivity|]. split; [|repeat split]. apply (read_tidy_apart n); [reflexivity|]. cbn. tauto.
Qed.
Print Assumptions C42_xml_refuted.

(** What holds of C42: all settings without unknown ones, through their own functions.  Missing: unknown settings; through a type. *)
Theorem C42_xml_partial (F : FloatIO) x : xml_extra x = [] ->
  exists n, out_to_yaml (xml_marshal x []) = Ok n /\ xml_unmarshal n new_xml = Ok x.
Proof. exact (xml_round x). Qed.
Print Assumptions C42_xml_partial.
Example C42_case : xml_extra (mkXml (Some true) None (Some "n") (Some "") None []) = [].
Proof. reflexivity. Qed.
