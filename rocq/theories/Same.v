(** When two values, examples or type definitions are the same: vocabulary of the round trip properties (C31, C32, C38, C41,
    C43, C50, C54).  An interface{} value that is read is kept as the YAML node it came from, so a string set with a setter and the same string
    read from a document are different Go values; they count as the same here when they stand for the same node. *)
From Coq Require Import SpecFloat.
From Verif Require Import Base Num OMap OMapSpec Keys Yaml Values Assign Formats Meta Out Xml Example DataType.

(** An example of which there is more to say than its value. *)
Definition more_than_value (e : ex) : Prop :=
  ex_display e <> None \/ ex_descr e <> None \/ ents (ex_anns e) <> [] \/ ents (ex_extra e) <> [] \/ ex_strict e = false.

Definition same_value {F : FloatIO} (v w : gval) : Prop := exists n, to_node v = Ok n /\ to_node w = Ok n.

Definition same_entry {K V} (R : V -> V -> Prop) (a b : K * V) : Prop := fst a = fst b /\ R (snd a) (snd b).
(** The same keys in the same order with the same values. *)
Definition same_map {K V} (R : V -> V -> Prop) (m m' : amap K V) : Prop := Forall2 (same_entry R) (ents m) (ents m').

Definition same_opt {A} (R : A -> A -> Prop) (a b : option A) : Prop :=
  match a, b with
  | None, None => True
  | Some x, Some y => R x y
  | _, _ => False
  end.

(** The value of an example and the elements of an enum: equal where the Go type is string, bool, int64 or float64. *)
Definition same_of {F : FloatIO} (k : dkind) (v w : gval) : Prop :=
  match k with
  | TyString | TyDateOnly | TyDatetime | TyDatetimeOnly | TyTimeOnly | TyBool | TyInteger | TyNumber => v = w
  | _ => same_value v w
  end.

Definition same_ex {F : FloatIO} (k : dkind) (e e' : ex) : Prop :=
  ex_display e = ex_display e' /\ ex_descr e = ex_descr e' /\ ex_strict e = ex_strict e' /\
  same_opt (same_of k) (ex_value e) (ex_value e') /\
  same_map (same_map same_value) (ex_anns e) (ex_anns e') /\
  same_map same_value (ex_extra e) (ex_extra e').
