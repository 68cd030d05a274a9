(** Properties C91 and C92: what the repository's tests check, for all keys and values; and the example program. *)
From Coq Require Import SpecFloat.
From Verif Require Import Base Num OMap OMapSpec OMapJson Keys Yaml Values Assign Meta Out Doc DataType Marshal Api Library Writer WriterProofs
  MapFacts IdemSpec RepoTests Program.

(** Some float conversion and some encoder, for the examples. *)
#[local] Instance toy : FloatIO := {
  float_of := fun _ s => if String.eqb s "0.5" then Some (S754_finite false 1 (-1)) else None;
  float_text := fun _ => (TFloat, "0.5")
}.
#[local] Instance toy_encoder : Encoder := {
  pieces := fun c n => match c with Some c => [(c ++ newline)%string; value n] | None => [value n] end
}.
Local Notation s_ := str_node.
Local Notation m_ := (Map TMap).

(** ** C91 *)

(** C91: the checks of StringMap_test.go, UntypedMap_test.go and AnyExampleMap_test.go hold for all strings as keys (distinct where those of
    the files are) and all values, whatever the type of the values and however they are turned into nodes. *)
Theorem C91_string_keys (V : Type) (vn : V -> res node) (k other k1 k2 : string) (v x : V) :
  k <> other -> k <> k1 -> k <> k2 -> suite String.eqb (fun _ => true) (fun s => s) skey_node vn k other k1 k2 v x.
Proof.
  intros Ho H1 H2. apply suite_holds; try reflexivity; try (apply String.eqb_refl); apply String.eqb_neq; assumption.
Qed.
Print Assumptions C91_string_keys.

(** ... and those of AnyMap_test.go for all keys that a Go map takes and that equal themselves. *)
Theorem C91_any_keys (F : FloatIO) (float_text : spec_float -> string) (other_text : nat -> string) (k other k1 k2 : gkey) (v x : gval) :
  gkey_proper k = true -> gkey_hashable other = true -> gkey_hashable k1 = true -> gkey_proper k2 = true ->
  gkey_eqb k other = false -> gkey_eqb k k1 = false -> gkey_eqb k k2 = false ->
  suite gkey_eqb gkey_hashable (gkey_sprint float_text other_text) key_node to_node k other k1 k2 v x.
Proof.
  intros Pk Ho H1 P2 Eo E1 E2. destruct (andb_prop _ _ Pk) as [Hk _]. destruct (andb_prop _ _ P2) as [H2 _].
  apply suite_holds; try assumption. exact (proj2 (gkey_proper_good k Pk)).
Qed.
Print Assumptions C91_any_keys.

(** The conditions are met by the literals of the files (StringMap_test.go:59-60, 71; 178, 188, 192), and by keys of other types. *)
Example C91_case :
  suite String.eqb (fun _ => true) (fun s => s) skey_node (fun s => Ok (str_node s))
    "c78e3771-5b3a-4863-9a0a-e69260e3f521" "51934d4a-dbec-4f87-acad-0e6c263c082c3d265c56-6781-447a-885a-45df68d319ac"
    "88b5e5b7-3df0-4900-ad33-b0cff51d9736" "eb1046a5-8c93-4f0d-9101-8996057f6abc"
    "afd7e14c-c2c1-465d-9fb2-e1f5a36f858e" "59c0b37e-40fe-4c83-8dba-2f83c42111c0" /\
  suite gkey_eqb gkey_hashable (gkey_sprint (fun _ => "") (fun _ => "")) key_node to_node (KInt 1) (KStr "1") (KBool true) KNil (GStr "v") GNil.
Proof.
  split.
  - apply C91_string_keys; discriminate.
  - apply C91_any_keys; reflexivity.
Qed.
(** A key that does not equal itself fails the test of Has. *)
Example C91_nan : ~ test_has gkey_eqb gkey_hashable (KFloat S754_nan) (GStr "v") (KStr "k").
Proof. intros (m & P & _ & H & _). cbn in P. injection P as <-. discriminate H. Qed.

(** ** C92 *)

(** C92: the program ends without a panic exactly when a document was fetched that loads and can be written, and the standard output takes
    all of it; then what was printed is the text of that document, with its header. *)
Theorem C92_prints (F : FloatIO) (E : Encoder) f w s :
  example_main f w = (s, Ok tt) <->
  exists n', printed_document f n' /\ takes_all w (pieces (Some "#%RAML 1.0") n') /\
    s = mkSent (pieces (Some "#%RAML 1.0") n') (text_of (pieces (Some "#%RAML 1.0") n')) true.
Proof.
  destruct (main_cases f w) as [(a & n & Hf & Hm & H1 & H2)|[Hm Hn]].
  - rewrite Hm. unfold check, api_write. change header_base with "#%RAML 1.0".
    destruct (api_marshal a) as [n'| |] eqn:M.
    + pose proof (proj1 (document_of f w a n n' Hf Hm H1 H2) M) as D. unfold finish. cbn [snd fst].
      destruct (accepted (send w nothing_sent (pieces (Some "#%RAML 1.0") n'))) eqn:A.
      * apply send_accepted in A. rewrite (send_ok w _ A). split.
        -- intros H. injection H as <-. exists n'. auto.
        -- intros (n2 & D2 & _ & ->). apply (document_of f w a n n2 Hf Hm H1 H2) in D2. rewrite M in D2. injection D2 as <-. reflexivity.
      * split; [discriminate|]. intros (n2 & D2 & T & _). apply (document_of f w a n n2 Hf Hm H1 H2) in D2. rewrite M in D2. injection D2 as <-.
        apply send_accepted in T. congruence.
    + split; [discriminate|]. intros (n2 & D2 & _). apply (document_of f w a n n2 Hf Hm H1 H2) in D2. congruence.
    + split; [discriminate|]. intros (n2 & D2 & _). apply (document_of f w a n n2 Hf Hm H1 H2) in D2. congruence.
  - rewrite Hm. split; [discriminate|]. intros (n2 & D2 & _). contradiction (Hn n2).
Qed.
Print Assumptions C92_prints.

(** Otherwise it panics.  Then it printed nothing, if there is no document to print ... *)
Theorem C92_panics (F : FloatIO) (E : Encoder) f w : snd (example_main f w) <> Ok tt ->
  snd (example_main f w) = Panic /\ ((forall n', ~ printed_document f n') -> fst (example_main f w) = nothing_sent).
Proof.
  destruct (main_cases f w) as [(a & n & Hf & Hm & H1 & H2)|[Hm Hn]].
  - rewrite Hm. unfold check. intros H. split.
    + destruct (snd (api_write a w)) as [[]| |] eqn:S; [contradiction H; exact S|reflexivity|exact S].
    + intros N. destruct (api_marshal a) as [n'| |] eqn:M.
      * contradiction (N n'). apply (document_of f w a n n' Hf Hm H1 H2). exact M.
      * unfold api_write. rewrite M. reflexivity.
      * unfold api_write. rewrite M. reflexivity.
  - rewrite Hm. intros _. split; reflexivity.
Qed.
Print Assumptions C92_panics.
(** ... and a beginning of its text, if there is one. *)
Theorem C92_prefix (F : FloatIO) (E : Encoder) f w n' : printed_document f n' ->
  exists r, text_of (pieces (Some "#%RAML 1.0") n') = (bytes (fst (example_main f w)) ++ r)%string.
Proof.
  intros D. destruct (main_cases f w) as [(a & n & Hf & Hm & H1 & H2)|[Hm Hn]]; [|contradiction (Hn n')].
  apply (document_of f w a n n' Hf Hm H1 H2) in D. rewrite Hm. unfold check, api_write. rewrite D. unfold finish. cbn [snd fst].
  destruct (send_prefix w (pieces (Some header_base) n')) as [r Hr]. exists r.
  destruct (accepted (send w nothing_sent (pieces (Some header_base) n'))); exact Hr.
Qed.
Print Assumptions C92_prefix.

(** The document of readme.adoc: the nodes of the output shown there (lines 33-65). *)
Definition readme_annotations : node :=
  m_ [(s_ "deprecated", s_ "nil"); (s_ "experimental", s_ "string | nil"); (s_ "feedbackRequested", s_ "string?");
      (s_ "testHarness", m_ [(s_ "type", s_ "string")]); (s_ "badge", Scal TNull "");
      (s_ "clearanceLevel", m_ [(s_ "properties", m_
        [(s_ "level", m_ [(s_ "enum", Seq TSeq [s_ "low"; s_ "medium"; s_ "high"]); (s_ "required", Scal TBool "true")]);
         (s_ "signature", m_ [(s_ "pattern", s_ "\d{3}-\w{12}"); (s_ "required", Scal TBool "true")])])])].
Definition readme_resources : list (node * node) :=
  [(s_ "/groups", m_ [(s_ "(experimental)", Scal TNull ""); (s_ "(feedbackRequested)", Scal TNull "")]);
   (s_ "/users", m_
     [(s_ "(testHarness)", s_ "usersTest"); (s_ "(badge)", s_ "tested.gif");
      (s_ "(clearanceLevel)", m_ [(s_ "level", s_ "high"); (s_ "signature", s_ "230-ghtwvfrs1itr")]);
      (s_ "get", m_ [(s_ "(deprecated)", Scal TNull ""); (s_ "(experimental)", Scal TNull "");
                     (s_ "(feedbackRequested)", s_ "Feedback committed!"); (s_ "responses", m_ [(Scal TInt "200", Scal TNull "")])])])].
Definition readme_output : node :=
  m_ ([(s_ "title", s_ "Illustrating annotations"); (s_ "mediaType", Seq TSeq [s_ "application/json"]); (s_ "annotationTypes", readme_annotations)]
      ++ readme_resources).

(** The program, on a document with one media type written as a string and its parts in another order, prints the document shown in the
    readme; and again, when it is given that one. *)
Example C92_readme :
  let input := m_ ((s_ "mediaType", s_ "application/json") :: readme_resources ++
    [(s_ "annotationTypes", readme_annotations); (s_ "title", s_ "Illustrating annotations")]) in
  printed_document (Response (SDoc input)) readme_output /\ printed_document (Response (SDoc readme_output)) readme_output.
Proof.
  split; eexists; (split; [reflexivity|]); (split; [discriminate|]); intros _; vm_compute; reflexivity.
Qed.
Example C92_case : snd (example_main NoResponse (fun _ _ => None)) = Panic /\ snd (example_main (Response SEmpty) (fun _ _ => None)) = Panic /\
  snd (example_main (Response (SDoc readme_output)) (fun _ _ => None)) = Ok tt /\
  snd (example_main (Response (SDoc readme_output)) (limit 3)) = Panic /\ bytes (fst (example_main (Response (SDoc readme_output)) (limit 3))) = "#%R".
Proof. vm_compute. repeat split. Qed.
