(** Properties C89 and C90: what does not load has a small part that does not load; what may be left out of what loads. *)
From Coq Require Import SpecFloat.
From Verif Require Import Base Num OMap OMapSpec Keys Yaml Values Assign Formats Meta Out Xml Example DataType Doc Api Library
  TypeFacts Fields FacetSpec DocProofs GrammarSpec Grammar Sizes Cuts CutProofs TrimProofs.

(** Some float conversion, for the examples. *)
#[local] Instance toy : FloatIO := {
  float_of := fun _ s => if String.eqb s "0.5" then Some (S754_finite false 1 (-1)) else None;
  float_text := fun _ => (TFloat, "0.5")
}.
Local Notation s_ := str_node.
Local Notation m_ := (Map TMap).

(** ** C89: type definitions *)

Theorem C89_type_rejected (F : FloatIO) n : hat n = Err -> exists m, part m n /\ (nodes m <= 4 * levels n)%nat /\ hat m = Err.
Proof.
  intros H. destruct (hat_found n) as [m [P [S O]]]; [rewrite H; discriminate|]. exists m. split; [exact P|]. split; [lia|]. rewrite H in O. apply out_err. exact O.
Qed.
Print Assumptions C89_type_rejected.

Theorem C89_type_panics (F : FloatIO) n : hat n = Panic -> exists m, part m n /\ (nodes m <= 4 * levels n)%nat /\ hat m = Panic.
Proof.
  intros H. destruct (hat_found n) as [m [P [S O]]]; [rewrite H; discriminate|]. exists m. split; [exact P|]. split; [lia|]. rewrite H in O. apply out_panic. exact O.
Qed.
Print Assumptions C89_type_panics.

(** A definition with many properties, one of which has a bound that is no number, and a part of it that shows this. *)
Definition wide (n : nat) (bound : node) : node :=
  m_ [(s_ "displayName", s_ "x"); (s_ "type", s_ "object"); (s_ "minProperties", Scal TInt "1");
      (s_ "properties", m_ (repeat (s_ "p", m_ [(s_ "type", s_ "string"); (s_ "description", s_ "d")]) n ++
         [(s_ "q", m_ [(s_ "items", m_ [(s_ "pattern", s_ "a*")]); (s_ "uniqueItems", Scal TBool "true"); (s_ "minItems", bound)])] ++
         repeat (s_ "p", s_ "string") n))].
Definition narrow (bound : node) : node :=
  m_ [(s_ "type", s_ "object"); (s_ "properties", m_ [(s_ "q", m_ [(s_ "items", m_ []); (s_ "minItems", bound)])])].

Example C89_type_case : hat (wide 50 (s_ "one")) = Err /\ Nat.ltb 400 (nodes (wide 50 (s_ "one"))) = true /\ levels (wide 50 (s_ "one")) = 5%nat /\
  hat (narrow (s_ "one")) = Err /\ nodes (narrow (s_ "one")) = 11%nat /\ part (narrow (s_ "one")) (wide 1 (s_ "one")).
Proof.
  split; [vm_compute; reflexivity|]. split; [vm_compute; reflexivity|]. split; [vm_compute; reflexivity|]. split; [vm_compute; reflexivity|].
  split; [vm_compute; reflexivity|]. unfold narrow, wide, str_node. cbn [repeat app]. repeat (constructor; try (repeat constructor; fail)).
Qed.
Example C89_panic_case : match hat (m_ [(s_ "properties", m_ [(s_ "a", s_ "string"); (s_ "b", m_ [(s_ "type", s_ "nil"); (s_ "x", s_ "y")])])]) with Panic => True | _ => False end.
Proof. vm_compute. exact I. Qed.

(** ** C89: API documents *)

Theorem C89_api_rejected (F : FloatIO) n a : api_unmarshal n a = Err ->
  exists m, part m n /\ (nodes m <= 4 * levels n)%nat /\ forall a', api_unmarshal m a' = Err.
Proof.
  intros H. destruct (api_found a n) as [m [P [S O]]]; [rewrite H; discriminate|]. exists m. split; [exact P|]. split; [lia|]. rewrite H in O.
  intros a'. apply out_err. rewrite <- (out_same _ _ _ _ (api_verdict m a) (api_verdict m a')). exact O.
Qed.
Print Assumptions C89_api_rejected.

Theorem C89_api_panics (F : FloatIO) n a : api_unmarshal n a = Panic ->
  exists m, part m n /\ (nodes m <= 4 * levels n)%nat /\ forall a', api_unmarshal m a' = Panic.
Proof.
  intros H. destruct (api_found a n) as [m [P [S O]]]; [rewrite H; discriminate|]. exists m. split; [exact P|]. split; [lia|]. rewrite H in O.
  intros a'. apply out_panic. rewrite <- (out_same _ _ _ _ (api_verdict m a) (api_verdict m a')). exact O.
Qed.
Print Assumptions C89_api_panics.

Definition doc_ (k : nat) (key : string) : node :=
  m_ [(s_ "title", s_ "t"); (s_ "types", m_ (repeat (s_ "T", wide k (Scal TInt "1")) k ++ [(s_ "U", m_ [(s_ "example", m_ [(s_ "value", s_ "v"); (s_ key, s_ "w")])])]));
      (s_ "version", Scal TInt "1")].

Example C89_api_case : api_unmarshal (doc_ 9 "k") new_api = Err /\ api_unmarshal (doc_ 9 "") new_api = Panic /\
  Nat.ltb 800 (nodes (doc_ 9 "")) = true /\ levels (doc_ 9 "") = 7%nat /\
  api_unmarshal (m_ [(s_ "version", Scal TInt "1")]) new_api = Err /\
  api_unmarshal (m_ [(s_ "types", m_ [(s_ "U", m_ [(s_ "example", m_ [(s_ "", s_ "w")])])])]) new_api = Panic.
Proof. repeat split; vm_compute; reflexivity. Qed.

(** ** C89: libraries *)

Theorem C89_library_rejected (F : FloatIO) n l : lib_unmarshal n l = Err ->
  exists m, part m n /\ (nodes m <= 4 * levels n)%nat /\ forall l', lib_unmarshal m l' = Err.
Proof.
  intros H. destruct (lib_found l n) as [m [P [S O]]]; [rewrite H; discriminate|]. exists m. split; [exact P|]. split; [lia|]. rewrite H in O.
  intros l'. apply out_err. rewrite <- (out_same _ _ _ _ (lib_verdict m l) (lib_verdict m l')). exact O.
Qed.
Print Assumptions C89_library_rejected.

Theorem C89_library_panics (F : FloatIO) n l : lib_unmarshal n l = Panic ->
  exists m, part m n /\ (nodes m <= 4 * levels n)%nat /\ forall l', lib_unmarshal m l' = Panic.
Proof.
  intros H. destruct (lib_found l n) as [m [P [S O]]]; [rewrite H; discriminate|]. exists m. split; [exact P|]. split; [lia|]. rewrite H in O.
  intros l'. apply out_panic. rewrite <- (out_same _ _ _ _ (lib_verdict m l) (lib_verdict m l')). exact O.
Qed.
Print Assumptions C89_library_panics.

Definition lib_ (k : nat) (v : node) : node :=
  m_ [(s_ "usage", s_ "u"); (s_ "types", m_ (repeat (s_ "T", wide k (Scal TInt "1")) k ++ [(s_ "U", wide k v)])); (s_ "uses", m_ [(s_ "a", s_ "b")])].
Example C89_library_case : lib_unmarshal (lib_ 9 (s_ "one")) new_library = Err /\ Nat.ltb 800 (nodes (lib_ 9 (s_ "one"))) = true /\ levels (lib_ 9 (s_ "one")) = 7%nat /\
  lib_unmarshal (m_ [(s_ "types", m_ [(s_ "U", narrow (s_ "one"))])]) new_library = Err.
Proof. repeat split; vm_compute; reflexivity. Qed.

(** ** C90: leaving something out *)

(** It is not so that what is left loads when some entries are left out: without its type, an entry can mean something else,
    something that is rejected, or at which the loader panics. *)
Theorem C90_refuted (F : FloatIO) :
  (exists n m a l d, part m n /\ hat n = Ok d /\ hat m = Err /\
    (forall x, exists y, api_unmarshal (m_ [(s_ "types", m_ [(s_ "T", n)])]) x = Ok y) /\ api_unmarshal (m_ [(s_ "types", m_ [(s_ "T", m)])]) a = Err /\
    (forall x, exists y, lib_unmarshal (m_ [(s_ "types", m_ [(s_ "T", n)])]) x = Ok y) /\ lib_unmarshal (m_ [(s_ "types", m_ [(s_ "T", m)])]) l = Err) /\
  (exists n m d, part m n /\ hat n = Ok d /\ hat m = Panic).
Proof.
  split.
  - exists (m_ [(s_ "type", s_ "object"); (s_ "minLength", s_ "x")]), (m_ [(s_ "minLength", s_ "x")]), new_api, new_library. eexists.
    split; [constructor; apply entries_left_out, entries_kept; repeat constructor|]. split; [reflexivity|]. split; [reflexivity|].
    split; [intros x; eexists; reflexivity|]. split; [reflexivity|]. split; [intros x; eexists; reflexivity|reflexivity].
  - exists (m_ [(s_ "type", s_ "string"); (s_ "properties", m_ [(s_ "a", s_ "nil")])]), (m_ [(s_ "properties", m_ [(s_ "a", s_ "nil")])]). eexists.
    split; [constructor; apply entries_left_out, entries_kept; [constructor| |constructor]; constructor; apply entries_kept; constructor|]. split; reflexivity.
Qed.
Print Assumptions C90_refuted.

(** It is so as long as no entry is left out that can decide the kind of a type ... *)
Theorem C90_type_partial (F : FloatIO) m n d : trim m n -> hat n = Ok d -> exists d', hat m = Ok d' /\ d_kind d' = d_kind d.
Proof.
  intros T H. assert (L : loads n) by (apply type_verdict; eauto). apply (trim_loads _ _ T) in L. apply type_verdict in L as [d' H']. exists d'. split; [exact H'|].
  apply hat_def_kind in H. apply hat_def_kind in H'. eapply def_kind_fun; [exact H'|]. eapply trim_def_kind; eassumption.
Qed.
Print Assumptions C90_type_partial.
Theorem C90_api_partial (F : FloatIO) m n a : trim m n -> (exists a', api_unmarshal n a = Ok a') -> exists a', api_unmarshal m a = Ok a'.
Proof. intros T H. apply api_verdict in H. apply api_verdict. eapply trim_api; eassumption. Qed.
Print Assumptions C90_api_partial.
Theorem C90_library_partial (F : FloatIO) m n l : trim m n -> (exists l', lib_unmarshal n l = Ok l') -> exists l', lib_unmarshal m l = Ok l'.
Proof. intros T H. apply lib_verdict in H. apply lib_verdict. eapply trim_lib; eassumption. Qed.
Print Assumptions C90_library_partial.

(** ... and any entries of an API document or of a library can be left out, and any of a type definition that stays of its kind. *)
Theorem C90_api_entries_partial (F : FloatIO) t es es' a : some_of es' es -> (exists a', api_unmarshal (Map t es) a = Ok a') ->
  exists a', api_unmarshal (Map t es') a = Ok a'.
Proof. intros T H. apply api_verdict in H. apply api_verdict. eapply some_api; eassumption. Qed.
Print Assumptions C90_api_entries_partial.
Theorem C90_library_entries_partial (F : FloatIO) t es es' l : some_of es' es -> (exists l', lib_unmarshal (Map t es) l = Ok l') ->
  exists l', lib_unmarshal (Map t es') l = Ok l'.
Proof. intros T H. apply lib_verdict in H. apply lib_verdict. eapply some_lib; eassumption. Qed.
Print Assumptions C90_library_entries_partial.
Theorem C90_type_entries_partial (F : FloatIO) t es es' d : some_of es' es -> hat (Map t es) = Ok d -> classified es' (d_kind d) ->
  exists d', hat (Map t es') = Ok d'.
Proof. exact (some_type t es es' d). Qed.
Print Assumptions C90_type_entries_partial.

(** A definition without its display name, without some of its properties, and without an item of an enumeration in one of them. *)
Definition whole_ : node :=
  m_ [(s_ "displayName", s_ "d"); (s_ "type", s_ "object"); (s_ "minLength", s_ "no number");
      (s_ "properties", m_ [(s_ "a", s_ "string"); (s_ "b", m_ [(s_ "enum", Seq TSeq [s_ "x"; s_ "y"]); (s_ "pattern", s_ "p")]); (s_ "c", s_ "file")])].
Definition less_ : node :=
  m_ [(s_ "type", s_ "object"); (s_ "properties", m_ [(s_ "b", m_ [(s_ "enum", Seq TSeq [s_ "y"])])])].
Example C90_case : trim less_ whole_ /\ (exists d, hat whole_ = Ok d) /\
  (exists a, api_unmarshal (m_ [(s_ "title", s_ "t"); (s_ "types", m_ [(s_ "T", whole_)])]) new_api = Ok a) /\
  (exists l, lib_unmarshal (m_ [(s_ "usage", s_ "t"); (s_ "types", m_ [(s_ "T", whole_)])]) new_library = Ok l).
Proof.
  split.
  - unfold less_, whole_, str_node.
    constructor. apply trimmed_entry_left_out; [cbn; intuition discriminate|].
    apply trimmed_entry_kept; [constructor|constructor|]. apply trimmed_entry_left_out; [cbn; intuition discriminate|].
    apply trimmed_entry_kept; [constructor| |constructor]. constructor. apply trimmed_entry_left_out; [cbn; intuition discriminate|].
    apply trimmed_entry_kept; [constructor| |apply trimmed_entry_left_out; [cbn; intuition discriminate|constructor]].
    constructor. apply trimmed_entry_kept; [constructor| |apply trimmed_entry_left_out; [cbn; intuition discriminate|constructor]].
    constructor. apply trimmed_item_left_out, trimmed_item_kept; constructor.
  - split; [eexists; vm_compute; reflexivity|]. split; eexists; vm_compute; reflexivity.
Qed.
Example C90_entries_case : some_of [(s_ "items", s_ "string"); (s_ "maxItems", Scal TInt "2")] [(s_ "type", s_ "array"); (s_ "items", s_ "string"); (s_ "minItems", Scal TInt "1"); (s_ "maxItems", Scal TInt "2")] /\
  match hat (m_ [(s_ "type", s_ "array"); (s_ "items", s_ "string"); (s_ "minItems", Scal TInt "1"); (s_ "maxItems", Scal TInt "2")]) with
  | Ok d => classified [(s_ "items", s_ "string"); (s_ "maxItems", Scal TInt "2")] (d_kind d)
  | _ => False end.
Proof.
  split; [apply some_left_out, some_kept, some_left_out, some_kept, some_end|]. vm_compute hat. cbn [d_kind d_base b_kind]. apply by_items.
  - intros e [<-|[<-|[]]]; split; discriminate.
  - intros [e [[<-|[<-|[]]] E]]; discriminate E.
  - eexists. split; [left; reflexivity|reflexivity].
Qed.
