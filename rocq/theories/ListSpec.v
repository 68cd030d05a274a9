(** What it takes for a reading to leave other lists alone: the words used in PropertiesLists.v. *)
From Coq Require Import SpecFloat.
From Verif Require Import Base Num OMap OMapSpec Keys Yaml Values Assign Formats Meta Out Xml Example Doc DataType Api Library Into Lists.

(** The cells whose contents are elements of the list at [p], and the cells after them that its capacity reaches. *)
Definition shows (w : world) (p : place) (a i : nat) : Prop :=
  match at_ w p with Some h => a = arr h /\ off h <= i < off h + len h | None => False end.
Definition has_room (w : world) (p : place) (a i : nat) : Prop :=
  match at_ w p with Some h => a = arr h /\ off h + len h <= i < off h + cap h | None => False end.

(** cap(p) == len(p) *)
Definition is_full (w : world) (p : place) : Prop := match at_ w p with Some h => cap h <= len h | None => True end.

(** A list of this object. *)
Definition of_object (o : nat) (p : place) : Prop := match p with Field u _ => u = o | Held _ => False end.

Definition mark (x : nat) (b : bool) (mine : nat -> bool) : nat -> bool := fun y => if Nat.eqb y x then b else mine y.

(** A program that keeps track of which of its variables hold a list it has made itself and not given to an object.  It gives away, and appends to, a list only if it is
    such a list or has no spare capacity (x[:n:n] sees to that), and does not cut beyond the length. *)
Definition careful (mine : nat -> bool) (w : world) (a : action) : Prop :=
  match a with
  | Set_ _ _ x | Append x _ => mine x = true \/ is_full w (Held x)
  | Cut _ y _ j _ => match at_ w (Held y) with Some h => j <= len h | None => True end
  | _ => True
  end.

Definition mine_after (a : action) (mine : nat -> bool) : nat -> bool :=
  match a with
  | Make x _ _ | Nil x | Append x _ => mark x true mine
  | Get x _ _ | Set_ _ _ x | Cut x _ _ _ _ => mark x false mine
  | _ => mine
  end.

Section Careful.
  Context {F : FloatIO}.
  Variable grow : nat -> nat.

  Fixpoint careful_all (mine : nat -> bool) (w : world) (l : list action) : Prop :=
    match l with
    | [] => True
    | a :: t => careful mine w a /\ careful_all (mine_after a mine) (act grow a w) t
    end.
End Careful.

(** At the start every variable is nil. *)
Definition all_mine : nat -> bool := fun _ => true.

(** The lists of the objects of Into.v. *)
Definition strs (l : option (list string)) : option (list elem) := option_map (map EStr) l.

Definition api_list (a : api) (f : field) : option (list elem) :=
  match f with
  | FProtocols => strs (a_protocols a)
  | FMediaTypes => strs (a_mediaType a)
  | FSecuredBy => strs (a_securedBy a)
  | FDocumentation => option_map (map EDoc) (a_documentation a)
  | FFileTypes | FEnum => None
  end.
Definition api_fields : list field := [FProtocols; FMediaTypes; FSecuredBy; FDocumentation].

Definition type_list (d : dtype) (f : field) : option (list elem) :=
  match d with
  | TBase _ => None
  | TExt _ _ _ c s =>
    match f with
    | FEnum => option_map (map EVal) (c_enum c)
    | FFileTypes => match s with SFile l _ _ => strs l | _ => None end
    | _ => None
    end
  end.
Definition type_fields : list field := [FFileTypes; FEnum].
