(** Vocabulary of C66 and C67: maps that getters return. *)
From Coq Require Import SpecFloat.
From Verif Require Import Base Num OMap OMapSpec Keys Yaml Values Assign Formats Meta Out Xml Example DataType Marshal Doc Api Library Setters Live.

(** Everything a program can have in memory. *)
Definition reached (w : memory) : Prop := exists cs, w = performs cs no_memory.

(** The object without its maps. *)
Definition strip (o : obj) : obj := fold_right (fun s o => set_map s (blank_cell s) o) o all_slots.

(** [o'] is [o] with the maps of the getters in [P] edited by [e], and nothing else. *)
Definition edited_in (P : slot -> Prop) (e : edit) (o o' : obj) : Prop :=
  strip o' = strip o /\
  forall s, (P s -> get_map s o' = option_map (edit_cell e) (get_map s o)) /\ (~ P s -> get_map s o' = get_map s o).

(** The edits of one map among some calls, in order. *)
Fixpoint edits_of (r : nat) (cs : list call) : list edit :=
  match cs with
  | [] => []
  | Edit r' e :: cs => if Nat.eqb r' r then e :: edits_of r cs else edits_of r cs
  | _ :: cs => edits_of r cs
  end.

(** A call that puts another map in the place of that of a getter. *)
Definition replaces (i : nat) (s : slot) (c : call) : Prop :=
  match c with SetMap i' s' _ | UnsetMap i' s' => i' = i /\ s' = s | _ => False end.

(** A call that gives an object a map from elsewhere. *)
Definition gives_map (c : call) : Prop := match c with SetMap _ _ (Some _) => True | _ => False end.

(** ** Objects as values *)

(** What a program does with objects if it never uses a map in two places: it makes objects, edits their maps through their getters, and calls their setters
    (those of Setters.v), which get new maps if they take one. *)
Inductive use : Type :=
| UMake (o : obj)
| UEdit (i : nat) (s : slot) (e : edit)   (* o.X().Put(k, v) *)
| USet (i : nat) (p : plain_op).          (* o.SetX(v) *)

(** The type of an object has the method. *)
Definition has_method (p : plain_op) (o : obj) : bool :=
  match p, o with PApi _, OApi _ | PLib _, OLib _ | PDoc _, ODoc _ | PEx _, OEx _ | PType _, OType _ => true | _, _ => false end.

(** As calls on memory. *)
Definition as_calls (w : memory) (u : use) : list call :=
  match u with
  | UMake o => [Make o]
  | UEdit i s e => match got w i s with Some r => [Edit r e] | None => [] end
  | USet i p =>
    match view w i with
    | Some o =>
      if has_method p o
      then match map_op p with
           | None => [SetPlain i p]
           | Some (s, None) => [UnsetMap i s]
           | Some (s, Some c) => [MakeMap c; SetMap i s (Some (List.length (maps w)))]
           end
      else []
    | None => []
    end
  end.
Definition by_reference (us : list use) (w : memory) : memory := fold_left (fun w u => performs (as_calls w u) w) us w.

(** On values, as in the rest of the model. *)
Definition on_value (u : use) (os : list obj) : list obj :=
  match u with
  | UMake o => os ++ [o]
  | UEdit i s e => replace_nth i (fun o => match get_map s o with Some c => set_map s (edit_cell e c) o | None => o end) os
  | USet i p => replace_nth i (plain_apply p) os
  end.
Definition by_value (us : list use) (os : list obj) : list obj := fold_left (fun os u => on_value u os) us os.
