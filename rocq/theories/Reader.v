(** rparse on a reader: how much of it one call takes, and calls that follow each other on the same reader.
    (v0/pkg/raml/rparse/parse-api.go, parse-lib.go; yaml.NewDecoder and Decode of gopkg.in/yaml.v3.) *)
From Verif Require Import Base Num OMap OMapSpec Keys Yaml Values Assign Meta Out Doc DataType Marshal Api Library Writer.

(** An io.Reader: what each Read to come will hand over, and whether it then fails (true) or says io.EOF (false). *)
Record reader : Type := mkReader { reads : list string; fails : bool }.

(** What yaml.v3 sees in a text: the first document of it, and whether the text is enough to know that document whatever follows.  What is
    assumed of the two is said in ReaderSpec.v. *)
Class Scanner : Type := { found : string -> stream; enough : string -> bool }.

Section Reader.
  Context {F : FloatIO} {S : Scanner}.

  (** The decoder's buffer: it reads until it has enough.  What it has read is gone from the reader. *)
  Fixpoint fetch (got : string) (ps : list string) : string * list string :=
    if enough got then (got, ps)
    else match ps with
         | [] => (got, [])
         | p :: r => fetch (got ++ p) r
         end.

  (** yaml.NewDecoder(red) and one dec.Decode: what it finds, and the reader after it.  A reader that fails before there is enough is an error. *)
  Definition decode_one (r : reader) : stream * reader :=
    let '(got, rest) := fetch "" (reads r) in
    (if enough got then found got else if fails r then SBad else found got, mkReader rest (fails r)).

  (** parse-api.go:11-20 ParseApiDoc: a new decoder for each call *)
  Definition read_api_doc (r : reader) : parsed api * reader :=
    let '(s, r') := decode_one r in (parse_api s, r').

  (** parse-lib.go:10-19 ParseLibrary *)
  Definition read_library (r : reader) : parsed library * reader :=
    let '(s, r') := decode_one r in (parse_library s, r').

  (** The same call n times on one reader: the results, and the reader after them. *)
  Fixpoint calls_on {A} (call : reader -> A * reader) (n : nat) (r : reader) : list A * reader :=
    match n with
    | O => ([], r)
    | Datatypes.S n' => let '(a, r1) := call r in let '(l, r2) := calls_on call n' r1 in (a :: l, r2)
    end.
End Reader.
