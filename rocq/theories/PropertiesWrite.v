(** Properties C55, C56 and C57: writing to a destination and reading from a stream. *)
From Coq Require Import SpecFloat.
From Verif Require Import Base Num OMap OMapSpec Keys Yaml Values Assign Meta Out Doc DataType Marshal Api Library Writer WriterProofs
  ApiRoundSpec ApiRound LibRound.

(** Some float conversion and some encoder, for the examples. *)
#[local] Instance toy : FloatIO := {
  float_of := fun _ s => if String.eqb s "0.5" then Some (S754_finite false 1 (-1)) else None;
  float_text := fun _ => (TFloat, "0.5")
}.
#[local] Instance toy_encoder : Encoder := {
  pieces := fun c _ => match c with Some c => [(c ++ newline)%string; newline; ("title: t" ++ newline)%string] | None => ["{}"; newline] end
}.

(** ** C55 *)

(** What yaml.v3 does with the head comment of a document. *)
Definition comment_first (E : Encoder) : Prop := forall c n, exists r, text_of (pieces (Some c) n) = (c ++ newline ++ r)%string.

(** C55: what a successful WriteRAML wrote starts with the header line. *)
Theorem C55_api_header (F : FloatIO) (E : Encoder) a w s : comment_first E -> api_write a w = (s, Ok tt) ->
  exists r, bytes s = ("#%RAML 1.0" ++ newline ++ r)%string.
Proof.
  intros C H. apply api_written_ok in H as [n [_ [_ H]]]. destruct (C header_base n) as [r Hr]. exists r. rewrite H, Hr. reflexivity.
Qed.
Print Assumptions C55_api_header.
Theorem C55_library_header (F : FloatIO) (E : Encoder) l w s : lib_write l w = (s, Ok tt) ->
  exists r, bytes s = ("#%RAML 1.0 Library" ++ newline ++ "---" ++ newline ++ r)%string.
Proof.
  intros H. apply lib_written_ok in H as [n [_ [_ H]]]. exists (text_of (pieces None n)). rewrite H. unfold lib_pieces. rewrite text_cons. reflexivity.
Qed.
Print Assumptions C55_library_header.
(** An unsuccessful one wrote a beginning of such a text, or nothing. *)
Theorem C55_api_header_prefix (F : FloatIO) (E : Encoder) a w : comment_first E ->
  exists r r', (bytes (fst (api_write a w)) ++ r' = "#%RAML 1.0" ++ newline ++ r)%string.
Proof.
  intros C. unfold api_write. destruct (api_marshal a) as [n| |]; cbn [fst finish bytes nothing_sent]; try (eexists ""; eexists; reflexivity).
  destruct (C header_base n) as [r Hr]. destruct (send_prefix w (pieces (Some header_base) n)) as [r' Hr']. exists r, r'. rewrite <- Hr', Hr. reflexivity.
Qed.
Print Assumptions C55_api_header_prefix.
Theorem C55_library_header_prefix (F : FloatIO) (E : Encoder) l w :
  exists r r', (bytes (fst (lib_write l w)) ++ r' = "#%RAML 1.0 Library" ++ newline ++ r)%string.
Proof.
  assert (X : exists r', (bytes (send1 w nothing_sent HeaderLibrary) ++ r')%string = HeaderLibrary).
  { unfold send1. destruct (w (calls nothing_sent) HeaderLibrary) as [k|]; cbn [bytes nothing_sent append]; [|exists ""; apply append_empty].
    destruct (cut k HeaderLibrary) as [r Hr]. exists r. symmetry. exact Hr. }
  destruct X as [r' X]. destruct (lib_marshal l) as [n| |] eqn:M.
  - rewrite (lib_write_send l w n M). destruct (send_prefix w (lib_pieces n)) as [r Hr]. unfold lib_pieces at 1 in Hr. rewrite text_cons in Hr.
    exists ("---" ++ newline ++ text_of (pieces None n))%string, r. cbn [fst finish]. rewrite <- Hr. reflexivity.
  - unfold lib_write. rewrite M. destruct (accepted (send1 w nothing_sent HeaderLibrary)); cbn [fst]; exists ("---" ++ newline)%string, r'; rewrite X; reflexivity.
  - unfold lib_write. rewrite M. destruct (accepted (send1 w nothing_sent HeaderLibrary)); cbn [fst]; exists ("---" ++ newline)%string, r'; rewrite X; reflexivity.
Qed.
Print Assumptions C55_library_header_prefix.
(** The headers of the module types. *)
Theorem C55_to_header m : to_header "root" = "#%RAML 1.0" /\ (m <> "root" -> to_header m = ("#%RAML 1.0" ++ " " ++ m)%string).
Proof. split; [reflexivity|]. intros H. unfold to_header. destruct (String.eqb_spec m TypeRoot) as [e|_]; [contradiction|reflexivity]. Qed.
Print Assumptions C55_to_header.
(** ... for the module types there are (RAML 1.0, typed fragments and root documents) *)
Theorem C55_module_headers : map to_header [TypeRoot; TypeDataType; TypeExtension; TypeLibrary; TypeResourceType; TypeTrait] =
  ["#%RAML 1.0"; "#%RAML 1.0 DataType"; "#%RAML 1.0 Extension"; "#%RAML 1.0 Library"; "#%RAML 1.0 ResourceType"; "#%RAML 1.0 Trait"].
Proof. reflexivity. Qed.
Print Assumptions C55_module_headers.
(** rmeta/headers.go: the header lines as constants, with the line that starts a YAML document *)
Theorem C55_header_constants : [HeaderRoot; HeaderDataType; HeaderExtension; HeaderLibrary; HeaderOverlay; HeaderTrait] =
  map (fun m => m ++ newline ++ "---" ++ newline)%string ["#%RAML 1.0"; "#%RAML 1.0 DataType"; "#%RAML 1.0 Extension"; "#%RAML 1.0 Library"; "#%RAML 1.0 Overlay"; "#%RAML 1.0 Trait"].
Proof. reflexivity. Qed.
Print Assumptions C55_header_constants.
Theorem C55_headers_differ m m' : m <> m' -> to_header m <> to_header m'.
Proof. intros N E. apply N. exact (to_header_inj m m' E). Qed.
Print Assumptions C55_headers_differ.
(** The header a library writes is the one of its module type. *)
Theorem C55_library_module_header : HeaderLibrary = (to_header TypeLibrary ++ newline ++ "---" ++ newline)%string.
Proof. reflexivity. Qed.
Print Assumptions C55_library_module_header.
Example C55_case :
  comment_first toy_encoder /\ snd (api_write (a_set_title "t" new_api) (fun _ _ => None)) = Ok tt /\ snd (lib_write new_library (limit 30)) = Ok tt.
Proof.
  split; [|split; reflexivity]. intros c n. exists (newline ++ "title: t" ++ newline)%string. unfold text_of. cbn [pieces toy_encoder].
  cbn [String.concat]. rewrite !append_assoc. reflexivity.
Qed.

(** ** C56 *)

(** C56: WriteRAML succeeds exactly when the document can be marshalled and the destination takes every piece that is handed to it ... *)
Theorem C56_api_success (F : FloatIO) (E : Encoder) a w :
  snd (api_write a w) = Ok tt <-> exists n, api_marshal a = Ok n /\ takes_all w (pieces (Some "#%RAML 1.0") n).
Proof.
  unfold api_write. destruct (api_marshal a) as [n| |]; cbn [snd]; [|split; [discriminate|intros [n [H _]]; discriminate H]..].
  unfold finish. cbn [snd]. destruct (accepted (send w nothing_sent (pieces (Some header_base) n))) eqn:A.
  - split; [|reflexivity]. intros _. exists n. split; [reflexivity|]. apply send_accepted. exact A.
  - split; [discriminate|]. intros [n' [H T]]. injection H as <-. apply send_accepted in T. unfold header_base in A. congruence.
Qed.
Print Assumptions C56_api_success.
Theorem C56_library_success (F : FloatIO) (E : Encoder) l w :
  snd (lib_write l w) = Ok tt <-> exists n, lib_marshal l = Ok n /\ takes_all w (HeaderLibrary :: pieces None n).
Proof.
  destruct (lib_marshal l) as [n| |] eqn:M.
  - rewrite (lib_write_send l w n M). unfold finish. cbn [snd]. fold (lib_pieces n). destruct (accepted (send w nothing_sent (lib_pieces n))) eqn:A.
    + split; [|reflexivity]. intros _. exists n. split; [reflexivity|]. apply send_accepted. exact A.
    + split; [discriminate|]. intros [n' [H T]]. injection H as <-. apply send_accepted in T. unfold lib_pieces in A. congruence.
  - split; [|intros [n [H _]]; discriminate H]. unfold lib_write. rewrite M. destruct (accepted (send1 w nothing_sent HeaderLibrary)); discriminate.
  - split; [|intros [n [H _]]; discriminate H]. unfold lib_write. rewrite M. destruct (accepted (send1 w nothing_sent HeaderLibrary)); discriminate.
Qed.
Print Assumptions C56_library_success.
(** ... and otherwise returns an error, if marshalling does not panic. *)
Theorem C56_failure_is_error (F : FloatIO) (E : Encoder) a l w :
  (api_marshal a <> Panic -> snd (api_write a w) <> Ok tt -> snd (api_write a w) = Err) /\
  (lib_marshal l <> Panic -> snd (lib_write l w) <> Ok tt -> snd (lib_write l w) = Err).
Proof.
  split.
  - unfold api_write. destruct (api_marshal a) as [n| |]; cbn [snd]; try congruence. unfold finish. cbn [snd]. destruct (accepted _); congruence.
  - unfold lib_write. destruct (accepted (send1 w nothing_sent HeaderLibrary)); [|reflexivity].
    destruct (lib_marshal l) as [n| |]; cbn [snd]; try congruence. unfold finish. cbn [snd]. destruct (accepted _); congruence.
Qed.
Print Assumptions C56_failure_is_error.
(** A destination that fails after any number of bytes that is less than the whole: an error, and exactly those bytes were written. *)
Theorem C56_api_full (F : FloatIO) (E : Encoder) a n k : api_marshal a = Ok n -> (k < String.length (text_of (pieces (Some "#%RAML 1.0") n)))%nat ->
  snd (api_write a (limit k)) = Err /\ bytes (fst (api_write a (limit k))) = substring 0 k (text_of (pieces (Some "#%RAML 1.0") n)).
Proof.
  intros M H. unfold api_write. rewrite M. unfold finish, header_base. cbn [fst snd]. destruct (limit_bytes k _ H) as [A B]. rewrite A. auto.
Qed.
Print Assumptions C56_api_full.
Theorem C56_library_full (F : FloatIO) (E : Encoder) l n k : lib_marshal l = Ok n -> (k < String.length (text_of (HeaderLibrary :: pieces None n)))%nat ->
  snd (lib_write l (limit k)) = Err /\ bytes (fst (lib_write l (limit k))) = substring 0 k (text_of (HeaderLibrary :: pieces None n)).
Proof.
  intros M H. rewrite (lib_write_send l _ n M). unfold finish, lib_pieces. cbn [fst snd]. destruct (limit_bytes k _ H) as [A B]. rewrite A. auto.
Qed.
Print Assumptions C56_library_full.
(** When the header fails, the library hands over nothing else; when marshalling fails, the API document hands over nothing. *)
Theorem C56_nothing_further (F : FloatIO) (E : Encoder) :
  (forall l w k, w [] HeaderLibrary = Some k -> calls (fst (lib_write l w)) = [HeaderLibrary] /\ snd (lib_write l w) = Err) /\
  (forall a w, api_marshal a = Err -> api_write a w = (nothing_sent, Err)).
Proof.
  split.
  - intros l w k H. unfold lib_write, send1. cbn [calls nothing_sent]. rewrite H. cbn. auto.
  - intros a w H. unfold api_write. rewrite H. reflexivity.
Qed.
Print Assumptions C56_nothing_further.
(** WriteRAML crashes when making the document out of the object does, and then only; nothing but the header of a library is out by then. *)
Theorem C56_crash (F : FloatIO) (E : Encoder) a l w :
  (api_marshal a = Panic <-> snd (api_write a w) = Panic) /\ (api_marshal a = Panic -> fst (api_write a w) = nothing_sent) /\
  (lib_marshal l = Panic /\ w [] HeaderLibrary = None <-> snd (lib_write l w) = Panic) /\ (lib_marshal l = Panic -> calls (fst (lib_write l w)) = [HeaderLibrary]).
Proof.
  unfold api_write, lib_write, finish, send1. cbn [calls nothing_sent]. repeat split.
  - intros ->. reflexivity.
  - destruct (api_marshal a) as [n| |]; cbn [snd]; try discriminate; try reflexivity. destruct (accepted _); discriminate.
  - intros ->. reflexivity.
  - intros [-> ->]. reflexivity.
  - destruct (w [] HeaderLibrary) as [k|]; [discriminate H|]. cbn [accepted] in H. destruct (lib_marshal l) as [n| |]; cbn [snd] in H; try discriminate H; try reflexivity. destruct (accepted _) in H; discriminate H.
  - destruct (w [] HeaderLibrary) as [k|]; [discriminate H|reflexivity].
  - intros ->. destruct (w [] HeaderLibrary) as [k|]; reflexivity.
Qed.
Print Assumptions C56_crash.
Example C56_crash_case : api_marshal (a_set_extra (mkMap [(KStr "x", GOther Panic)] false) new_api) = Panic /\ lib_marshal (l_set_extra (mkMap [(KStr "x", GOther Panic)] false) new_library) = Panic.
Proof. split; reflexivity. Qed.
(** After a failed write nothing more is handed over. *)
Theorem C56_stops (F : FloatIO) (E : Encoder) a w : snd (api_write a w) = Err -> calls (fst (api_write a w)) = [] \/
  exists before p k, calls (fst (api_write a w)) = before ++ [p] /\ w before p = Some k.
Proof.
  unfold api_write. destruct (api_marshal a) as [n| |]; cbn [fst snd]; [|auto|auto]. unfold finish. cbn [fst snd]. intros H. right.
  destruct (send_cases w (pieces (Some header_base) n) nothing_sent eq_refl) as [(A & _)|(A & before & p & rest & k & _ & H1 & _ & H3 & _)]; [rewrite A in H; discriminate H|].
  exists before, p, k. split; [exact H3|exact H1].
Qed.
Print Assumptions C56_stops.
Example C56_case :
  api_write (a_set_title "t" new_api) (limit 13) = (mkSent [("#%RAML 1.0" ++ newline)%string; newline; ("title: t" ++ newline)%string] ("#%RAML 1.0" ++ newline ++ newline ++ "t")%string false, Err) /\
  lib_write new_library (limit 3) = (mkSent [HeaderLibrary] "#%R" false, Err).
Proof. split; reflexivity. Qed.
(** Marshalling can fail: an extra facet with an unknown kind of value. *)
Example C56_case_marshal : exists a, api_marshal a = Err.
Proof. exists (a_set_extra (mkMap [(KUnhash 0, GNode (str_node ""))] false) new_api). reflexivity. Qed.

(** ** C57 *)

(** C57: an empty stream; a stream that is not YAML; and all documents. *)
Theorem C57_parsing (F : FloatIO) :
  parse_library SEmpty = Parsed (Some new_library) None /\
  parse_api SEmpty = Parsed None (Some PEof) /\
  parse_library SBad = Parsed None (Some POther) /\
  parse_api SBad = Parsed None (Some POther) /\
  (forall n, node_tag n <> TNull -> api_unmarshal n new_api = Err -> parse_api (SDoc n) = Parsed None (Some POther)) /\
  (forall n, node_tag n <> TNull -> lib_unmarshal n new_library = Err -> parse_library (SDoc n) = Parsed None (Some POther)) /\
  (forall n a, node_tag n <> TNull -> api_unmarshal n new_api = Ok a -> parse_api (SDoc n) = Parsed (Some a) None) /\
  (forall n l, node_tag n <> TNull -> lib_unmarshal n new_library = Ok l -> parse_library (SDoc n) = Parsed (Some l) None) /\
  (forall n, node_tag n = TNull -> parse_api (SDoc n) = Parsed (Some new_api) None /\ parse_library (SDoc n) = Parsed (Some new_library) None).
Proof.
  do 4 (split; [reflexivity|]). do 2 (split; [intros n T H; unfold parse_api, parse_library, decode; destruct (node_tag n); try congruence; rewrite H; reflexivity|]).
  do 2 (split; [intros n a T H; unfold parse_api, parse_library, decode; destruct (node_tag n); try congruence; rewrite H; reflexivity|]).
  intros n T. unfold parse_api, parse_library, decode. rewrite T. auto.
Qed.
Print Assumptions C57_parsing.
(** A document or an error, never both and never neither. *)
Theorem C57_one_result (F : FloatIO) s :
  (forall d e, parse_api s = Parsed d e -> (d = None <-> e <> None)) /\ (forall d e, parse_library s = Parsed d e -> (d = None <-> e <> None)).
Proof.
  split; intros d e; unfold parse_api, parse_library, decode; destruct s as [| |n].
  all: try (intros H; injection H as <- <-; split; congruence).
  all: destruct (match node_tag n with TNull => true | _ => false end); [intros H; injection H as <- <-; split; congruence|].
  - destruct (api_unmarshal n new_api); try (intros H; injection H as <- <-; split; congruence). discriminate.
  - destruct (lib_unmarshal n new_library); try (intros H; injection H as <- <-; split; congruence). discriminate.
Qed.
Print Assumptions C57_one_result.
Example C57_case : (exists a, parse_api (SDoc (Map TMap [(str_node "title", str_node "t")])) = Parsed (Some a) None /\ a_title a = "t") /\
  parse_api (SDoc (Seq TSeq [])) = Parsed None (Some POther).
Proof. split; [eexists; split|]; reflexivity. Qed.

(** ** C50 and C54, from bytes to bytes *)

(** If the decoder finds in the text that was written the node that was written, then what the parse function returns is the same as what was written. *)
Theorem C50_write_parse_partial (F : FloatIO) (E : Encoder) (read : string -> stream) a : api_returns a ->
  (forall n, api_marshal a = Ok n -> read (text_of (pieces (Some "#%RAML 1.0") n)) = SDoc n) ->
  exists s a', api_write a (fun _ _ => None) = (s, Ok tt) /\ parse_api (read (bytes s)) = Parsed (Some a') None /\ same_api a a'.
Proof.
  intros R D. destruct (api_round_trip a R) as [n [a' [H1 [H2 H3]]]]. unfold api_write. rewrite H1.
  rewrite send_ok by (intros b p r _; reflexivity). eexists. exists a'. split; [reflexivity|]. split; [|exact H3]. cbn [bytes].
  unfold header_base. rewrite (D n H1). destruct n as [| |t l]; try discriminate H2. apply (C57_parsing F); [|exact H2].
  unfold api_marshal in H1. unfold out_to_yaml, map_to_yaml in H1. cbn [oord] in H1. apply bind_ok in H1 as [x [_ H1]]. injection H1 as <- _. discriminate.
Qed.
Print Assumptions C50_write_parse_partial.
Theorem C54_write_parse_partial (F : FloatIO) (E : Encoder) (read : string -> stream) l : lib_returns l ->
  (forall n, lib_marshal l = Ok n -> read (text_of (HeaderLibrary :: pieces None n)) = SDoc n) ->
  exists s l', lib_write l (fun _ _ => None) = (s, Ok tt) /\ parse_library (read (bytes s)) = Parsed (Some l') None /\ same_library l l'.
Proof.
  intros R D. destruct (lib_round_trip l R) as [n [l' [H1 [H2 H3]]]]. rewrite (lib_write_send l _ n H1).
  rewrite send_ok by (intros b p r _; reflexivity). eexists. exists l'. split; [reflexivity|]. split; [|exact H3]. cbn [bytes].
  unfold lib_pieces. rewrite (D n H1). destruct n as [| |t m]; try discriminate H2. apply (C57_parsing F); [|exact H2].
  unfold lib_marshal in H1. unfold out_to_yaml, map_to_yaml in H1. cbn [oord] in H1. apply bind_ok in H1 as [x [_ H1]]. injection H1 as <- _. discriminate.
Qed.
Print Assumptions C54_write_parse_partial.
