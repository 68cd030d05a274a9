(** The size of documents.  Vocabulary of C87. *)
From Verif Require Import Base Yaml.

(** The number of nodes: every key, value, item, mapping and sequence. *)
Fixpoint nodes (n : node) : nat :=
  match n with
  | Scal _ _ => 1
  | Seq _ l => Datatypes.S (list_sum (map nodes l))
  | Map _ l => Datatypes.S (list_sum (map (fun e => match e with (k, v) => nodes k + nodes v end) l))
  end%nat.
