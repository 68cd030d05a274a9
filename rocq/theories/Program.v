(** The example program, v0/cmd/example/main.go (and readme.adoc): it fetches a document, parses it and writes it to the standard output. *)
From Coq Require Import SpecFloat.
From Verif Require Import Base Num OMap OMapSpec Keys Yaml Values Assign Meta Out Doc DataType Marshal Api Library Writer WriterProofs IdemSpec.

(** What the request gives: an error, or a response whose body holds a stream.  The request itself is not modelled. *)
Inductive fetched : Type := NoResponse | Response (s : stream).

(** main.go:23-27 check: an error ends the program with a panic. *)
Definition check (o : outcome) : outcome :=
  match snd o with Err => (fst o, Panic) | _ => o end.

Section Main.
  Context {F : FloatIO} {E : Encoder}.

  (** main.go:9-21 main; [w] is the standard output.  The deferred Close of the body has no effect here.  WriteRAML on a nil
      document would panic. *)
  Definition example_main (f : fetched) (w : writer) : outcome :=
    match f with
    | NoResponse => check (nothing_sent, Err)
    | Response s =>
      match parse_api s with
      | ParsePanic => (nothing_sent, Panic)
      | Parsed _ (Some _) => check (nothing_sent, Err)
      | Parsed (Some a) None => check (api_write a w)
      | Parsed None None => (nothing_sent, Panic)
      end
    end.
End Main.

(** ** Specification *)

(** The document that should be printed: what was fetched, loaded and written again.  A document that is null counts as one without keys. *)
Definition printed_document {F : FloatIO} (f : fetched) (n' : node) : Prop :=
  exists n, f = Response (SDoc n) /\
    (node_tag n = TNull -> api_marshal new_api = Ok n') /\ (node_tag n <> TNull -> format_api n = Ok n').

Section Proofs.
  Context {F : FloatIO} {E : Encoder}.

  Lemma parse_doc n : parse_api (SDoc n) =
    match node_tag n with
    | TNull => Parsed (Some new_api) None
    | _ => match api_unmarshal n new_api with Ok a => Parsed (Some a) None | Err => Parsed None (Some POther) | Panic => ParsePanic end
    end.
  Proof. unfold parse_api, decode. destruct (node_tag n); cbn; destruct (api_unmarshal n new_api); reflexivity. Qed.

  (** The API that main writes *)
  Lemma main_cases f w :
    (exists a n, f = Response (SDoc n) /\ example_main f w = check (api_write a w) /\
       (node_tag n = TNull -> a = new_api) /\ (node_tag n <> TNull -> api_unmarshal n new_api = Ok a)) \/
    (example_main f w = (nothing_sent, Panic) /\ forall n', ~ printed_document f n').
  Proof.
    destruct f as [|[| |n]].
    - right. split; [reflexivity|]. intros n' (n & H & _). discriminate H.
    - right. split; [reflexivity|]. intros n' (n & H & _). discriminate H.
    - right. split; [reflexivity|]. intros n' (n & H & _). discriminate H.
    - unfold example_main. rewrite parse_doc.
      assert (D : node_tag n = TNull \/ node_tag n <> TNull) by (destruct (node_tag n); auto; right; discriminate).
      destruct D as [D|D].
      + left. exists new_api, n. rewrite D. split; [reflexivity|]. split; [reflexivity|]. split; [reflexivity|]. intros H; contradiction (H eq_refl).
      + replace (match node_tag n with TNull => Parsed (Some new_api) None
                 | _ => match api_unmarshal n new_api with Ok a => Parsed (Some a) None | Err => Parsed None (Some POther) | Panic => ParsePanic end end)
          with (match api_unmarshal n new_api with Ok a => Parsed (Some a) None | Err => Parsed None (Some POther) | Panic => ParsePanic end)
          by (destruct (node_tag n); congruence).
        destruct (api_unmarshal n new_api) as [a| |] eqn:U.
        * left. exists a, n. split; [reflexivity|]. split; [reflexivity|]. split; [intros H; contradiction|]. intros _. exact U.
        * right. split; [reflexivity|]. intros n' (n0 & H & _ & G). injection H as <-. specialize (G D). unfold format_api in G. rewrite U in G. discriminate G.
        * right. split; [reflexivity|]. intros n' (n0 & H & _ & G). injection H as <-. specialize (G D). unfold format_api in G. rewrite U in G. discriminate G.
  Qed.

  Lemma document_of f w a n n' : f = Response (SDoc n) -> example_main f w = check (api_write a w) ->
    (node_tag n = TNull -> a = new_api) -> (node_tag n <> TNull -> api_unmarshal n new_api = Ok a) ->
    (api_marshal a = Ok n' <-> printed_document f n').
  Proof.
    intros -> _ H1 H2. split.
    - intros M. exists n. split; [reflexivity|]. split.
      + intros D. rewrite <- (H1 D). exact M.
      + intros D. unfold format_api. rewrite (H2 D). exact M.
    - intros (n0 & H & G1 & G2). injection H as <-.
      assert (D : node_tag n = TNull \/ node_tag n <> TNull) by (destruct (node_tag n); auto; right; discriminate).
      destruct D as [D|D].
      + rewrite (H1 D). exact (G1 D).
      + specialize (G2 D). unfold format_api in G2. rewrite (H2 D) in G2. exact G2.
  Qed.
End Proofs.
