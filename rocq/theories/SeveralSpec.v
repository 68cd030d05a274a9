(** The texts of documents, and what can be read back from several of them. *)
From Coq Require Import SpecFloat.
From Verif Require Import Base Num OMap OMapSpec Keys Yaml Values Assign Meta Out Doc DataType Marshal Api Library Writer Reader ReaderSpec Several.

Section Spec.
  Context {F : FloatIO} {E : Encoder} {S : Scanner}.

  (** The node a document is saved as. *)
  Definition saved_as (d : document) : res node := match d with DApi a => api_marshal a | DLib l => lib_marshal l end.

  (** What one WriteRAML of a document that is saved as [n] writes. *)
  Definition text_for (d : document) (n : node) : string :=
    match d with
    | DApi _ => String.concat "" (pieces (Some header_base) n)
    | DLib _ => (HeaderLibrary ++ String.concat "" (pieces None n))%string
    end.

  (** The documents, the entries they are saved as, and the text that is written: one after the other. *)
  Inductive written : list document -> list (list (node * node)) -> string -> Prop :=
  | written_none : written [] [] ""
  | written_one d l ds ls t : saved_as d = Ok (Map TMap l) -> written ds ls t -> written (d :: ds) (l :: ls) (text_for d (Map TMap l) ++ t)%string.

  (** Contract 12 (DESIGN.md), for given documents: block mappings that follow each other in a text, with comments and nothing else between them, are one mapping. *)
  Definition one_mapping (t : string) (ls : list (list (node * node))) : Prop := found t = SDoc (Map TMap (List.concat ls)).
End Spec.
