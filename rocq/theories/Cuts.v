(** Parts of documents.  Vocabulary of C89 and C90. *)
From Verif Require Import Base Yaml Sizes.

(** What is left of a document when some items of sequences and some entries of mappings, at any depth, are left out. *)
Inductive part : node -> node -> Prop :=
| part_scalar t v : part (Scal t v) (Scal t v)
| part_sequence t l l' : part_items l' l -> part (Seq t l') (Seq t l)
| part_mapping t l l' : part_entries l' l -> part (Map t l') (Map t l)
with part_items : list node -> list node -> Prop :=
| items_end : part_items [] []
| items_left_out v l l' : part_items l' l -> part_items l' (v :: l)
| items_kept v v' l l' : part v' v -> part_items l' l -> part_items (v' :: l') (v :: l)
with part_entries : list (node * node) -> list (node * node) -> Prop :=
| entries_end : part_entries [] []
| entries_left_out e l l' : part_entries l' l -> part_entries l' (e :: l)
| entries_kept k k' v v' l l' : part k' k -> part v' v -> part_entries l' l -> part_entries ((k', v') :: l') ((k, v) :: l).

(** The number of levels: 1 for a scalar, 2 for a mapping of scalars, and so on. *)
Fixpoint levels (n : node) : nat :=
  match n with
  | Scal _ _ => 1
  | Seq _ l => Datatypes.S (list_max (map levels l))
  | Map _ l => Datatypes.S (list_max (map (fun e => match e with (k, v) => Nat.max (levels k) (levels v) end) l))
  end%nat.

(** The same, but no entry is left out whose key can decide what kind of type a definition is. *)
Definition deciding : list string := ["type"; "schema"; "properties"; "items"].

Inductive trim : node -> node -> Prop :=
| trim_scalar t v : trim (Scal t v) (Scal t v)
| trim_sequence t l l' : trim_items l' l -> trim (Seq t l') (Seq t l)
| trim_mapping t l l' : trim_entries l' l -> trim (Map t l') (Map t l)
with trim_items : list node -> list node -> Prop :=
| trimmed_items_end : trim_items [] []
| trimmed_item_left_out v l l' : trim_items l' l -> trim_items l' (v :: l)
| trimmed_item_kept v v' l l' : trim v' v -> trim_items l' l -> trim_items (v' :: l') (v :: l)
with trim_entries : list (node * node) -> list (node * node) -> Prop :=
| trimmed_entries_end : trim_entries [] []
| trimmed_entry_left_out k v l l' : ~ In (value k) deciding -> trim_entries l' l -> trim_entries l' ((k, v) :: l)
| trimmed_entry_kept k k' v v' l l' : trim k' k -> trim v' v -> trim_entries l' l -> trim_entries ((k', v') :: l') ((k, v) :: l).

(** Some of the entries, in the same order. *)
Inductive some_of {A} : list A -> list A -> Prop :=
| some_end : some_of [] []
| some_left_out a l l' : some_of l' l -> some_of l' (a :: l)
| some_kept a l l' : some_of l' l -> some_of (a :: l') (a :: l).
