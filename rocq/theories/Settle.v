(** Vocabulary of C88: formatting again and again. *)
From Coq Require Import SpecFloat.
From Verif Require Import Base Num Yaml Values ApiSpec IdemSpec.

(** A document after some rounds of loading and saving; a round that fails or crashes is the last. *)
Fixpoint rounds (format : node -> res node) (k : nat) (n : node) : res node :=
  match k with
  | O => Ok n
  | Datatypes.S k => do m <- format n; rounds format k m
  end.

(** The text written for a float64 that was read means that float64, and is not the name of a part of a library. *)
Definition floats_return {F : FloatIO} : Prop :=
  forall t s x, float_of t s = Some x -> float_of (fst (float_text x)) (snd (float_text x)) = Some x /\ ~ In (snd (float_text x)) lib_names.
