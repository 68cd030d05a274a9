(** WriteRAML again and again on the same writer.  (v0/internal/raml/APISpec.go:356-371, Library.go:161-168.) *)
From Coq Require Import SpecFloat.
From Verif Require Import Base Num OMap OMapSpec Keys Yaml Values Assign Meta Out Doc DataType Marshal Api Library Writer.

(** What can be written. *)
Inductive document : Type := DApi (a : api) | DLib (l : library).

Section Several.
  Context {F : FloatIO} {E : Encoder}.

  (** WriteRAML to a writer that has been handed something already: [api_write] and [lib_write] of Writer.v, from there.  Each call makes an encoder
      of its own, so nothing is written between two documents. *)
  Definition write_next (d : document) (w : writer) (s : sent) : outcome :=
    match d with
    | DApi a =>
      match api_marshal a with
      | Ok n => finish (send w s (pieces (Some header_base) n))
      | Err => (s, Err)
      | Panic => (s, Panic)
      end
    | DLib l =>
      let s := send1 w s HeaderLibrary in
      if accepted s then
        match lib_marshal l with
        | Ok n => finish (send w s (pieces None n))
        | Err => (s, Err)
        | Panic => (s, Panic)
        end
      else (s, Err)
    end.

  (** A program that writes documents up to the first that fails. *)
  Fixpoint write_all (ds : list document) (w : writer) (s : sent) : outcome :=
    match ds with
    | [] => (s, Ok tt)
    | d :: ds =>
      match write_next d w s with
      | (s', Ok _) => write_all ds w s'
      | r => r
      end
    end.
End Several.
