(** What is assumed of yaml.v3's scanner, and what a stream of documents is. *)
From Verif Require Import Base Num OMap OMapSpec Keys Yaml Values Assign Meta Out Doc DataType Marshal Api Library Writer Reader.

(** The contract of the scanner (DESIGN.md, contract 11): nothing is not enough and is an empty stream; and where a text is enough, what follows it is not looked at. *)
Record lawful (S : Scanner) : Prop := mkLawful {
  nothing_is_not_enough : enough "" = false;
  nothing_is_empty : found "" = SEmpty;
  enough_stays : forall s t, enough s = true -> enough (s ++ t) = true;
  rest_ignored : forall s t, enough s = true -> found (s ++ t) = found s
}.

(** All that a reader still has to hand over. *)
Definition text (r : reader) : string := String.concat "" (reads r).

(** The results a program expects of calls on a stream of documents: one for each, and after the last the result for an empty stream. *)
Definition one_for_each {S : Scanner} {A} (parse : stream -> A) (docs : list string) (n : nat) : list A :=
  map (fun i => parse (match nth_error docs i with Some d => found d | None => SEmpty end)) (seq 0 n).

(** The pieces of one document: no Read hands over more than the rest of it, so that there is enough after the last piece and not before. *)
Definition pieces_of_one {S : Scanner} (g : list string) : Prop :=
  enough (String.concat "" g) = true /\ forall k, k < List.length g -> enough (String.concat "" (firstn k g)) = false.

(** The pieces of a document that only the end of the stream ends. *)
Definition pieces_of_last {S : Scanner} (g : list string) : Prop :=
  forall k, enough (String.concat "" (firstn k g)) = false.

(** A result that has an error. *)
Definition is_error {A} (p : parsed A) : Prop :=
  match p with Parsed _ (Some _) => True | Parsed _ None => False | ParsePanic => True end.

(** An error other than the end of the stream. *)
Definition is_failure {A} (p : parsed A) : Prop :=
  match p with Parsed _ (Some POther) => True | _ => False end.
