(** Property C76: a definition got from a document is part of it, at any depth. *)
From Coq Require Import SpecFloat.
From Verif Require Import Base Num OMap OMapSpec Keys Yaml Values Assign Formats Meta Out Xml Example DataType Marshal Doc Api Library Setters Heap HeapSpec Live Deep DeepProofs DeepMore.

(** Some float conversion, for the examples. *)
#[local] Instance toy : FloatIO := {
  float_of := fun _ s => if String.eqb s "0.5" then Some (S754_finite false 1 (-1)) else None;
  float_text := fun _ => (TFloat, "0.5")
}.

Local Notation s_ := str_node.
Local Notation m_ := (Map TMap).

(** ** C76: what an edit does *)

(** An edit through a chain of getters (Types().Get("A").Properties().Get("b").Items() ...) of document [i] is an edit of what is there, in this document: the
    chain then leads to the edited part, all chains that part from it lead to what they led to before, and no other document changes. *)
Theorem C76_edit us i gs e ts q : Forall proper_use us -> proper_op e -> types_are us i ts -> follow gs (PTypes ts) = Some q ->
  (exists ts', types_are (us ++ [Change i gs e]) i ts' /\ follow gs (PTypes ts') = Some (edit_part e q) /\
     forall hs, parting gs hs -> follow hs (PTypes ts') = follow hs (PTypes ts)) /\
  forall j ts1, j <> i -> types_are us j ts1 -> types_are (us ++ [Change i gs e]) j ts1.
Proof. exact (change_types us i gs e ts q). Qed.
Print Assumptions C76_edit.

(** Where there is nothing, nothing changes. *)
Theorem C76_nowhere us i gs e ts : Forall proper_use us -> proper_op e -> types_are us i ts -> follow gs (PTypes ts) = None -> types_are (us ++ [Change i gs e]) i ts.
Proof. exact (change_nowhere us i gs e ts). Qed.
Print Assumptions C76_nowhere.

(** A document that is read or made has the types it was given, and the others keep theirs; so for SetTypes. *)
Theorem C76_begin us ts : Forall proper_use us -> proper_map proper ts ->
  types_are (us ++ [Begin ts]) (List.length (snd (deep_refs us))) ts /\ forall j ts1, types_are us j ts1 -> types_are (us ++ [Begin ts]) j ts1.
Proof. exact (begin_types us ts). Qed.
Print Assumptions C76_begin.

Theorem C76_set_types us i ts0 ts : Forall proper_use us -> proper_map proper ts -> types_are us i ts0 ->
  types_are (us ++ [NewTypes i ts]) i ts /\ forall j ts1, j <> i -> types_are us j ts1 -> types_are (us ++ [NewTypes i ts]) j ts1.
Proof. exact (set_types us i ts0 ts). Qed.
Print Assumptions C76_set_types.

(** At any time each document has its types: no program of this kind makes a definition contain itself. *)
Theorem C76_always us i : Forall proper_use us -> (i < List.length (snd (deep_refs us)))%nat -> exists ts, types_are us i ts /\ forall ts', types_are us i ts' -> ts' = ts.
Proof. exact (types_one us i). Qed.
Print Assumptions C76_always.

(** Saving writes the types as they are then. *)
Theorem C76_saved (F : FloatIO) us i ts : types_are us i ts ->
  exists m n0, nth_error (snd (deep_refs us)) i = Some m /\ forall n, (n0 <= n)%nat -> forall a l,
    h_api_marshal n (fst (deep_refs us)) a m = api_marshal (a_set_types ts a) /\ h_lib_marshal n (fst (deep_refs us)) l m = lib_marshal (l_set_types ts l).
Proof. exact (types_saved us i ts). Qed.
Print Assumptions C76_saved.

(** Every document that can be read may be the beginning of such a program, and every definition in it may be given to a setter. *)
Theorem C76_read (F : FloatIO) :
  (forall n a, api_unmarshal n new_api = Ok a -> proper_map proper (a_types a)) /\
  (forall n l, lib_unmarshal n new_library = Ok l -> proper_map proper (l_types l)) /\
  forall n d, hat n = Ok d -> proper d.
Proof. exact (conj api_proper (conj lib_proper hat_proper)). Qed.
Print Assumptions C76_read.

(** ** A program *)

(** Two documents are read from the same text; the items of a property of a type of the first are replaced, then the new items get a pattern; a property is
    deleted in the second. *)
Definition text : node :=
  m_ [(s_ "title", s_ "t"); (s_ "types", m_ [(s_ "A", m_ [(s_ "type", s_ "object");
     (s_ "properties", m_ [(s_ "b", m_ [(s_ "type", s_ "array"); (s_ "items", s_ "string")]); (s_ "c", s_ "integer")])])])].
Definition read_types_of (n : node) : amap string dtype := match api_unmarshal n new_api with Ok a => a_types a | _ => blank end.
Definition at_b : list getter := [GGet "A"; GProperties; GGet "b"].
Definition program : list deep_use :=
  [Begin (read_types_of text); Begin (read_types_of text);
   Change 0 at_b (DSet (TSetItems (Some (new_type TyString))));
   Change 0 (at_b ++ [GItems]) (DSet (TSetPattern "x*"));
   Change 1 [GGet "A"; GProperties] (DTypes (ODelete "b"))].

Example C76_example_proper : Forall proper_use program.
Proof.
  assert (P : proper_map proper (read_types_of text)).
  { unfold read_types_of. destruct (api_unmarshal text new_api) as [a| |] eqn:E; [exact (proj1 (C76_read toy) text a E)|vm_compute in E; discriminate E|vm_compute in E; discriminate E]. }
  apply Forall_cons; [exact P|]. apply Forall_cons; [exact P|]. apply Forall_cons; [repeat constructor|]. apply Forall_cons; [exact I|]. apply Forall_cons; [exact I|]. constructor.
Qed.
Example C76_example :
  match deep_refs program with
  | (w, ms) => map (fun m => match h_api_marshal 9 w new_api m with Ok n => Some n | _ => None end) ms
  end =
  [Some (m_ [(s_ "title", s_ ""); (s_ "types", m_ [(s_ "A", m_ [(s_ "type", s_ "object");
     (s_ "properties", m_ [(s_ "b", m_ [(s_ "type", s_ "array"); (s_ "items", m_ [(s_ "type", s_ "string"); (s_ "pattern", s_ "x*")])]); (s_ "c", s_ "integer")])])])]);
   Some (m_ [(s_ "title", s_ ""); (s_ "types", m_ [(s_ "A", m_ [(s_ "type", s_ "object"); (s_ "properties", m_ [(s_ "c", s_ "integer")])])])])].
Proof. vm_compute. reflexivity. Qed.
Example C76_example_parting : parting (at_b ++ [GItems]) [GGet "A"; GProperties; GGet "c"].
Proof. apply parting_later, parting_later, parting_here. discriminate. Qed.
