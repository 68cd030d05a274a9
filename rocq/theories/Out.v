(** The AnyMap [out] that the marshal functions fill.

    It is made by NewAnyMap(..).SerializeOrdered(false), only Put and PutIfNotNil are called on it, and it ends in ToYAML.  A value
    put into it is represented by the outcome of converting it to a node; the conversion itself happens (and fails)
    in ToYAML, in the order of the entries.  Keys are never unhashable: they are constants or come out of other maps. *)
From Verif Require Import Base Num OMap OMapSpec Keys Yaml Values Assign.

Notation outm := (list (gkey * res node)).

(** out.Put(k, v) *)
Definition oput (k : gkey) (v : res node) (o : outm) : outm := sput gkey_eqb k v o.

(** out.PutIfNotNil(k, v) *)
Definition oput_opt (k : gkey) (v : option (res node)) (o : outm) : outm :=
  match v with Some r => oput k r o | None => o end.

(** if c { out.Put(k, v) } *)
Definition oput_if (c : bool) (k : gkey) (v : res node) (o : outm) : outm :=
  if c then oput k v o else o.

(** m.ForEach(func(k, v) { out.Put(k, v) }) *)
Definition oput_all {K V} (kf : K -> gkey) (vf : V -> res node) (l : list (K * V)) (o : outm) : outm :=
  fold_left (fun o e => oput (kf (fst e)) (vf (snd e)) o) l o.

(** out.ToYAML() *)
Definition out_to_yaml {F : FloatIO} (o : outm) : res node :=
  map_to_yaml key_node (fun r => r) (mkMap o false).

(** ToYAML of an annotation (an UntypedMap) *)
Definition untyped_to_yaml {F : FloatIO} (m : untyped) : res node := map_to_yaml skey_node to_node m.
