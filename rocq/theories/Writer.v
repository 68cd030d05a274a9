(** WriteRAML of API documents and libraries, rmod headers, and rparse.  (v0/internal/raml/APISpec.go:356-371, Library.go:161-168,
    pkg/raml/rmod/ex-const-types.go, pkg/raml/rparse.) *)
From Coq Require Import SpecFloat.
From Verif Require Import Base Num OMap OMapSpec Keys Yaml Values Assign Meta Out Doc DataType Marshal Api Library.

(** ** Headers *)

(** rmod/ex-const-types.go:5-17: a module type is a string *)
Definition TypeRoot : string := "root".
Definition TypeDataType : string := "DataType".
Definition TypeExtension : string := "Extension".
Definition TypeLibrary : string := "Library".
Definition TypeResourceType : string := "ResourceType".
Definition TypeTrait : string := "Trait".

(** rmod/ex-const-types.go:19-25 ToHeader *)
Definition to_header (m : string) : string := if String.eqb m TypeRoot then header_base else header_base ++ " " ++ m.

(** ** Destinations *)

(** An io.Writer: given the pieces it was handed before, and a piece, it takes the whole piece ([None]) or fails after some of its bytes ([Some k]). *)
Definition writer : Type := list string -> string -> option nat.

(** What a run of writes leaves: the pieces handed over, the bytes that arrived, and whether all writes succeeded. *)
Record sent : Type := mkSent { calls : list string; bytes : string; accepted : bool }.

Definition nothing_sent : sent := mkSent [] "" true.

(** One w.Write *)
Definition send1 (w : writer) (s : sent) (p : string) : sent :=
  match w (calls s) p with
  | None => mkSent (calls s ++ [p]) (bytes s ++ p) true
  | Some k => mkSent (calls s ++ [p]) (bytes s ++ substring 0 k p) false
  end.

(** Writes up to the first that fails (yaml.v3 gives up when a flush fails). *)
Fixpoint send (w : writer) (s : sent) (ps : list string) : sent :=
  match ps with
  | [] => s
  | p :: r => let s' := send1 w s p in if accepted s' then send w s' r else s'
  end.

(** The text of a document, in the pieces in which yaml.v3's encoder hands it to the destination; the first argument is the head comment of
    the document.  Nothing is assumed of the pieces; what is assumed of the text is said where it is used. *)
Class Encoder : Type := { pieces : option string -> node -> list string }.

(** The outcome of WriteRAML: what was sent, and the result. *)
Definition outcome : Type := sent * res unit.
Definition finish (s : sent) : outcome := (s, if accepted s then Ok tt else Err).

Section Write.
  Context {F : FloatIO} {E : Encoder}.

  (** APISpec.go:356-371 WriteRAML *)
  Definition api_write (a : api) (w : writer) : outcome :=
    match api_marshal a with
    | Ok n => finish (send w nothing_sent (pieces (Some header_base) n))
    | Err => (nothing_sent, Err)
    | Panic => (nothing_sent, Panic)
    end.

  (** Library.go:161-168 WriteRAML.  Encode calls MarshalYAML before it has anything to flush. *)
  Definition lib_write (l : library) (w : writer) : outcome :=
    let s := send1 w nothing_sent HeaderLibrary in
    if accepted s then
      match lib_marshal l with
      | Ok n => finish (send w s (pieces None n))
      | Err => (s, Err)
      | Panic => (s, Panic)
      end
    else (s, Err).
End Write.

(** ** Parsing *)

(** What the decoder finds in a stream: nothing, no YAML (or a failing reader), or a document. *)
Inductive stream : Type := SEmpty | SBad | SDoc (n : node).

(** The two results of the parse functions: the document, or nil; and the error, or nil. *)
Inductive problem : Type := PEof | POther.
Inductive parsed (A : Type) : Type :=
| Parsed (doc : option A) (err : option problem)
| ParsePanic.
Arguments Parsed {A}.
Arguments ParsePanic {A}.

(** dec.Decode(out), for an object with an UnmarshalYAML method: the new object and the error.  A null document is not passed to UnmarshalYAML (contract 7). *)
Definition decode {A} (unmarshal : node -> A -> res A) (s : stream) (out : A) : parsed A :=
  match s with
  | SEmpty => Parsed (Some out) (Some PEof)
  | SBad => Parsed (Some out) (Some POther)
  | SDoc n =>
    if match node_tag n with TNull => true | _ => false end then Parsed (Some out) None
    else match unmarshal n out with
         | Ok a => Parsed (Some a) None
         | Err => Parsed None (Some POther)
         | Panic => ParsePanic
         end
  end.

Section Parse.
  Context {F : FloatIO}.

  (** rparse ParseApiDoc *)
  Definition parse_api (s : stream) : parsed api :=
    match decode api_unmarshal s new_api with
    | Parsed _ (Some e) => Parsed None (Some e)
    | r => r
    end.

  (** rparse ParseLibrary: io.EOF is no error *)
  Definition parse_library (s : stream) : parsed library :=
    match decode lib_unmarshal s new_library with
    | Parsed _ (Some POther) => Parsed None (Some POther)
    | Parsed d (Some PEof) => Parsed d None
    | r => r
    end.
End Parse.
