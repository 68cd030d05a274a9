(** Properties C73 and C74: reading a document into an object that holds something already, and what a reading that failed leaves. *)
From Coq Require Import SpecFloat.
From Verif Require Import Base Num OMap OMapSpec Keys Yaml Values Assign Formats Meta Out Xml Example Doc DataType Marshal Api Library TypeFacts Fields
  ApiFields FacetSpec Into IntoSpec IntoProofs.

(** Some float conversion, for the examples. *)
#[local] Instance toy : FloatIO := {
  float_of := fun _ s => if String.eqb s "0.5" then Some (S754_finite false 1 (-1)) else None;
  float_text := fun _ => (TFloat, "0.5")
}.
Local Notation s_ := str_node.
Local Notation m_ := (Map TMap).

(** ** C73 *)

(** The readers of this file are those of the other properties, with the object kept when they fail. *)
Theorem C73_readers (F : FloatIO) :
  (forall n a, run_assign (api_into n a) = api_unmarshal n a) /\
  (forall n a, run_assign (lib_into n a) = lib_unmarshal n a) /\
  (forall n a, run_assign (doc_into n a) = doc_unmarshal n a) /\
  (forall n a, run_assign (xml_into n a) = xml_unmarshal n a) /\
  (forall kd n a, run_assign (ex_into kd n a) = ex_unmarshal kd n a) /\
  (forall t l, t <> TStr -> hat (Map t l) = do d <- sift_type l; run_assign (type_into (Map t l) d)).
Proof.
  repeat split; [apply api_run|apply lib_run|apply doc_run|apply xml_run|apply ex_run|]. intros t l Ht.
  assert (E : is_string (Map t l) = false) by (destruct t; try reflexivity; contradiction).
  cbn [hat]. unfold hat_body. rewrite E. destruct (sift_type l); try reflexivity. cbn [bind]. rewrite (type_run t l _ Ht). reflexivity.
Qed.
Print Assumptions C73_readers.

Theorem C73_api (F : FloatIO) n a :
  snd (api_into n a) = snd (api_into n new_api) /\
  forall t l, n = Map t l -> snd (api_into n a) = Ok tt -> api_over l a (fst (api_into n new_api)) (fst (api_into n a)).
Proof.
  split; [destruct n; try reflexivity; apply api_into_over|]. intros t l ->. apply api_into_over.
Qed.
Print Assumptions C73_api.

Definition old_api : api :=
  fst (api_into (m_ [(s_ "title", s_ "Old"); (s_ "version", s_ "1"); (s_ "uses", m_ [(s_ "a", s_ "a.raml"); (s_ "b", s_ "b.raml")]); (s_ "mediaType", s_ "x/y")]) new_api).
Definition new_doc_api : node :=
  m_ [(s_ "title", s_ "New"); (s_ "uses", m_ [(s_ "c", s_ "c.raml"); (s_ "a", s_ "z.raml")]); (s_ "mediaType", s_ "p/q")].

Example C73_api_case :
  snd (api_into new_doc_api old_api) = Ok tt /\
  a_title (fst (api_into new_doc_api old_api)) = "New" /\
  a_version (fst (api_into new_doc_api old_api)) = Some "1" /\
  ents (a_uses (fst (api_into new_doc_api old_api))) = [("b", "b.raml"); ("c", "c.raml"); ("a", "z.raml")] /\
  a_mediaType (fst (api_into new_doc_api old_api)) = Some ["x/y"; "p/q"].
Proof. vm_compute. repeat split; reflexivity. Qed.

Theorem C73_library (F : FloatIO) n a :
  snd (lib_into n a) = snd (lib_into n new_library) /\
  forall t l, n = Map t l -> snd (lib_into n a) = Ok tt -> lib_over a (fst (lib_into n new_library)) (fst (lib_into n a)).
Proof.
  split; [destruct n; try reflexivity; apply lib_into_over|]. intros t l ->. apply lib_into_over.
Qed.
Print Assumptions C73_library.

Example C73_library_case :
  let old := fst (lib_into (m_ [(s_ "usage", s_ "Old"); (s_ "types", m_ [(s_ "A", s_ "string"); (s_ "B", s_ "string")])]) new_library) in
  let r := lib_into (m_ [(s_ "schemas", m_ [(s_ "C", s_ "integer"); (s_ "A", s_ "integer")])]) old in
  snd r = Ok tt /\ l_usage (fst r) = Some "Old" /\ map fst (ents (l_types (fst r))) = ["B"; "C"; "A"].
Proof. vm_compute. repeat split; reflexivity. Qed.

(** [shaped]: the type has the facets of its kind and no others, as every type has that the library makes. *)
Theorem C73_type (F : FloatIO) n a : shaped a ->
  snd (type_into n a) = snd (type_into n (new_type (d_kind a))) /\
  forall t l, n = Map t l -> t <> TStr -> snd (type_into n a) = Ok tt -> type_over l a (fst (type_into n (new_type (d_kind a)))) (fst (type_into n a)).
Proof.
  intros Hs. split; [|intros t l -> Ht; apply type_into_over; assumption].
  destruct (is_string n) eqn:E; [unfold type_into; rewrite E; reflexivity|].
  destruct n as [t v|t v|t l]; try (unfold type_into; rewrite E; reflexivity). apply type_into_over; [|exact Hs]. intros ->. discriminate.
Qed.
Print Assumptions C73_type.

(** A string is the name of the type, and changes nothing else: not even what kind of type the object is. *)
Theorem C73_type_string (F : FloatIO) n a : is_string n = true -> shaped a ->
  snd (type_into n a) = Ok tt /\
  d_kind (fst (type_into n a)) = d_kind a /\
  getf FType (fst (type_into n a)) = Some (VStr (value n)) /\
  forall f, f <> FType -> getf f (fst (type_into n a)) = getf f a.
Proof.
  intros E _. unfold type_into. rewrite E. cbn [fst snd]. split; [reflexivity|].
  destruct a as [b|b x f c s]; (split; [reflexivity|split; [reflexivity|]]); intros g Hg; destruct g; try reflexivity; contradiction.
Qed.
Print Assumptions C73_type_string.

(** Anything but a string or a mapping is an error, and changes nothing. *)
Theorem C73_type_other (F : FloatIO) n a : is_string n = false -> is_map n = false -> type_into n a = (a, Err).
Proof. intros E M. unfold type_into. rewrite E. destruct n; [reflexivity|reflexivity|discriminate M]. Qed.
Print Assumptions C73_type_other.
Example C73_type_other_case : is_string (Seq TSeq []) = false /\ is_map (Seq TSeq []) = false /\ is_string (Scal TInt "1") = false /\ is_map (Scal TInt "1") = false.
Proof. repeat split; reflexivity. Qed.

Example C73_type_case :
  let old := fst (type_into (m_ [(s_ "type", s_ "string"); (s_ "minLength", Scal TInt "3"); (s_ "enum", Seq TSeq [s_ "abc"])]) (new_type TyString)) in
  let r := type_into (m_ [(s_ "enum", Seq TSeq [s_ "abcd"]); (s_ "maxLength", Scal TInt "9")]) old in
  shaped old /\ snd r = Ok tt /\
  getf FType (fst r) = Some (VStr "string") /\ getf FMinLength (fst r) = Some (VInt 3) /\ getf FMaxLength (fst r) = Some (VOptInt (Some 9%Z)) /\
  getf FEnum (fst r) = getf FEnum (fst (type_into (m_ [(s_ "enum", Seq TSeq [s_ "abc"; s_ "abcd"])]) (new_type TyString))) /\
  snd (type_into (s_ "integer") old) = Ok tt /\ d_kind (fst (type_into (s_ "integer") old)) = TyString.
Proof. vm_compute. repeat split; reflexivity. Qed.

Theorem C73_example (F : FloatIO) kd n a :
  snd (ex_into kd n a) = snd (ex_into kd n new_ex) /\
  forall t l, n = Map t l -> snd (ex_into kd n a) = Ok tt -> ex_over l a (fst (ex_into kd n new_ex)) (fst (ex_into kd n a)).
Proof.
  split; [|intros t l ->; apply ex_into_over]. destruct n; [| |apply ex_into_over]; cbn [ex_into]; apply ex_val_outcome.
Qed.
Print Assumptions C73_example.

(** Anything but a mapping is the value, and all else stays. *)
Theorem C73_example_value (F : FloatIO) kd n a : is_map n = false -> snd (ex_into kd n a) = Ok tt ->
  exists v, ex_val kd n = Ok v /\
  fst (ex_into kd n a) = mkEx (ex_display a) (ex_descr a) (ex_anns a) (Some v) (ex_strict a) (ex_extra a).
Proof. intros Hn H. destruct n; [| |discriminate]; exact (ex_val_value kd _ a H). Qed.
Print Assumptions C73_example_value.

Example C73_example_case :
  let old := fst (ex_into TyString (m_ [(s_ "strict", Scal TBool "false"); (s_ "displayName", s_ "D"); (s_ "value", s_ "v")]) new_ex) in
  let r := ex_into TyString (m_ [(s_ "description", s_ "E"); (s_ "value", s_ "w")]) old in
  snd r = Ok tt /\ ex_strict (fst r) = false /\ ex_display (fst r) = Some "D" /\ ex_descr (fst r) = Some "E" /\
  ex_strict (fst (ex_into TyString (s_ "u") old)) = false /\ ex_value (fst r) <> ex_value old.
Proof. vm_compute. repeat split; try reflexivity. discriminate. Qed.

Theorem C73_xml (F : FloatIO) n a :
  snd (xml_into n a) = snd (xml_into n new_xml) /\
  forall t l, n = Map t l -> snd (xml_into n a) = Ok tt -> xml_over a (fst (xml_into n new_xml)) (fst (xml_into n a)).
Proof.
  split; [destruct n; try reflexivity; apply xml_into_over|]. intros t l ->. apply xml_into_over.
Qed.
Print Assumptions C73_xml.

Example C73_xml_case :
  let old := fst (xml_into (m_ [(s_ "attribute", Scal TBool "true"); (s_ "name", s_ "N"); (s_ "x", s_ "1")]) new_xml) in
  let r := xml_into (m_ [(s_ "name", s_ "M"); (s_ "y", s_ "2")]) old in
  snd r = Ok tt /\ xml_attr (fst r) = Some true /\ xml_name (fst r) = Some "M" /\ held (KStr "x") (xml_extra (fst r)) = Some (s_ "1") /\
  held (KStr "y") (xml_extra (fst r)) = Some (s_ "2").
Proof. vm_compute. repeat split; reflexivity. Qed.

Theorem C73_documentation (F : FloatIO) n a :
  snd (doc_into n a) = snd (doc_into n new_doc) /\
  forall t l, n = Map t l -> snd (doc_into n a) = Ok tt -> doc_over l a (fst (doc_into n new_doc)) (fst (doc_into n a)).
Proof.
  split; [destruct n; try reflexivity; apply doc_into_over|]. intros t l ->. apply doc_into_over.
Qed.
Print Assumptions C73_documentation.

Example C73_documentation_case :
  let old := fst (doc_into (m_ [(s_ "title", s_ "T"); (s_ "content", s_ "C"); (s_ "x", s_ "1")]) new_doc) in
  let r := doc_into (m_ [(s_ "content", s_ "D"); (s_ "x", s_ "2")]) old in
  snd r = Ok tt /\ doc_title (fst r) = "T" /\ doc_content (fst r) = "D" /\ List.length (ents (doc_extra (fst r))) = 1.
Proof. vm_compute. repeat split; reflexivity. Qed.

(** ** C74 *)

(** Every kind of object can be left half changed, by the entries before the bad one; API documents, libraries and types also by the items of the
    one entry of a document that has no other; and an array example by a bare value that is no list. *)
Theorem C74_unchanged_refuted (F : FloatIO) :
  (exists n a, snd (api_into n a) = Err /\ fst (api_into n a) <> a) /\
  (exists k v a, snd (api_into (m_ [(k, v)]) a) = Err /\ fst (api_into (m_ [(k, v)]) a) <> a) /\
  (exists k v a, snd (lib_into (m_ [(k, v)]) a) = Err /\ fst (lib_into (m_ [(k, v)]) a) <> a) /\
  (exists k v a, shaped a /\ snd (type_into (m_ [(k, v)]) a) = Err /\ fst (type_into (m_ [(k, v)]) a) <> a) /\
  (exists n a, snd (ex_into TyString n a) = Err /\ fst (ex_into TyString n a) <> a) /\
  (exists n a, is_map n = false /\ snd (ex_into TyArray n a) = Err /\ fst (ex_into TyArray n a) <> a) /\
  (exists n a, snd (xml_into n a) = Err /\ fst (xml_into n a) <> a) /\
  (exists n a, snd (doc_into n a) = Err /\ fst (doc_into n a) <> a).
Proof.
  repeat split.
  - exists (m_ [(s_ "title", s_ "New"); (s_ "version", m_ [])]), new_api. split; [reflexivity|discriminate].
  - exists (s_ "uses"), (m_ [(s_ "a", s_ "a.raml"); (s_ "b", m_ [])]), new_api. split; [reflexivity|discriminate].
  - exists (s_ "uses"), (m_ [(s_ "a", s_ "a.raml"); (s_ "b", m_ [])]), new_library. split; [reflexivity|discriminate].
  - exists (s_ "enum"), (Seq TSeq [s_ "a"; m_ []]), (new_type TyString). split; [reflexivity|split; [reflexivity|discriminate]].
  - exists (m_ [(s_ "displayName", s_ "D"); (s_ "strict", s_ "maybe")]), new_ex. split; [reflexivity|discriminate].
  - exists (s_ "x"), new_ex. split; [reflexivity|split; [reflexivity|discriminate]].
  - exists (m_ [(s_ "name", s_ "N"); (s_ "attribute", s_ "maybe")]), new_xml. split; [reflexivity|discriminate].
  - exists (m_ [(s_ "title", s_ "T"); (m_ [], s_ "x")]), new_doc. split; [reflexivity|discriminate].
Qed.
Print Assumptions C74_unchanged_refuted.

(** What is left, exactly: see [leaves]. *)
Theorem C74_api_partial (F : FloatIO) n a : is_ok (snd (api_into n a)) = false ->
  leaves (fun n a => run_assign (api_into n a)) api_sections n a (run_assign (api_into n a)) (fst (api_into n a)).
Proof. exact (api_left n a). Qed.
Print Assumptions C74_api_partial.

Theorem C74_library_partial (F : FloatIO) n a : is_ok (snd (lib_into n a)) = false ->
  leaves (fun n a => run_assign (lib_into n a)) lib_sections n a (run_assign (lib_into n a)) (fst (lib_into n a)).
Proof. exact (lib_left n a). Qed.
Print Assumptions C74_library_partial.

Theorem C74_type_partial (F : FloatIO) n a : is_ok (snd (type_into n a)) = false ->
  leaves (fun n a => run_assign (type_into n a)) type_sections n a (run_assign (type_into n a)) (fst (type_into n a)).
Proof. exact (type_left n a). Qed.
Print Assumptions C74_type_partial.

Theorem C74_example_partial (F : FloatIO) kd n a : is_ok (snd (ex_into kd n a)) = false ->
  ex_leaves (fun n a => run_assign (ex_into kd n a)) kd n a (run_assign (ex_into kd n a)) (fst (ex_into kd n a)).
Proof. exact (ex_left kd n a). Qed.
Print Assumptions C74_example_partial.

Theorem C74_xml_partial (F : FloatIO) n a : is_ok (snd (xml_into n a)) = false ->
  leaves (fun n a => run_assign (xml_into n a)) [] n a (run_assign (xml_into n a)) (fst (xml_into n a)).
Proof. exact (xml_left n a). Qed.
Print Assumptions C74_xml_partial.

Theorem C74_documentation_partial (F : FloatIO) n a : is_ok (snd (doc_into n a)) = false ->
  leaves (fun n a => run_assign (doc_into n a)) [] n a (run_assign (doc_into n a)) (fst (doc_into n a)).
Proof. exact (doc_left n a). Qed.
Print Assumptions C74_documentation_partial.

(** Two entries before the bad one, whose first item is good. *)
Example C74_case :
  let n := m_ [(s_ "title", s_ "New"); (s_ "uses", m_ [(s_ "a", s_ "a.raml"); (s_ "b", m_ []); (s_ "c", s_ "c.raml")]); (s_ "version", s_ "2")] in
  let a := fst (api_into n old_api) in
  snd (api_into n old_api) = Err /\ a_title a = "New" /\ ents (a_uses a) = [("b", "b.raml"); ("a", "a.raml")] /\ a_version a = Some "1".
Proof. vm_compute. repeat split; reflexivity. Qed.
