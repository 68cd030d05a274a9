(** Lists one level lower: Go slices.  A list that a getter returns is the object's own slice, a setter keeps the slice it is given, and reading
    appends in place where there is room.  So lists can share memory.

    Modelled: the lists of API documents (media types, protocols, secured by, documentation) and of type definitions (enum, file types), and the
    lists the program itself holds.  The objects' other fields are those of Into.v; the elements are values, though documentation items are kept
    by reference (sharing of objects is Heap.v, Objects.v, Sharing.v). *)
From Coq Require Import SpecFloat.
From Verif Require Import Base Num OMap OMapSpec Keys Yaml Values Assign Formats Meta Out Xml Example Doc DataType Api Library Into.

(** An element of a list: a string ([]string), a value of an enum ([]string, []bool, []int64, []float64, []interface{}) or a documentation item
    ([]raml.Documentation).  [EZero]: the zero value, in memory not written yet. *)
Inductive elem : Type := EZero | EStr (s : string) | EVal (v : gval) | EDoc (d : doc).

(** Memory: arrays by number, cells by position; numbers from [next] on are not in use. *)
Record memory : Type := mkMemory { next : nat; cell : nat -> nat -> elem }.

(** A slice header: array, first cell, length, capacity. *)
Record header : Type := mkHeader { arr : nat; off : nat; len : nat; cap : nat }.

(** A slice; [None] is nil. *)
Definition slice : Type := option header.

(** The fields that hold lists: APISpec.go:38-46 protocols, mediaType, securedBy, documentation; x-gen-type-file.go:43 fileTypes;
    x-gen-type-*.go enum *)
Inductive field : Type := FProtocols | FMediaTypes | FSecuredBy | FDocumentation | FFileTypes | FEnum.

(** Where a slice can be: in a variable of the program, or in a field of an object. *)
Inductive place : Type := Held (x : nat) | Field (o : nat) (f : field).

Definition field_eqb (f g : field) : bool :=
  match f, g with
  | FProtocols, FProtocols | FMediaTypes, FMediaTypes | FSecuredBy, FSecuredBy | FDocumentation, FDocumentation | FFileTypes, FFileTypes
  | FEnum, FEnum => true
  | _, _ => false
  end.

Definition place_eqb (p q : place) : bool :=
  match p, q with
  | Held x, Held y => Nat.eqb x y
  | Field o f, Field u g => Nat.eqb o u && field_eqb f g
  | _, _ => false
  end.

Record world : Type := mkWorld { mem : memory; at_ : place -> slice }.

Definition put (p : place) (s : slice) (w : world) : world := mkWorld (mem w) (fun q => if place_eqb q p then s else at_ w q).

(** What is in a slice. *)
Definition window (m : memory) (h : header) : list elem := map (fun i => cell m (arr h) (off h + i)) (seq 0 (len h)).
Definition contents (m : memory) (s : slice) : option (list elem) := option_map (window m) s.
Definition seen (w : world) (p : place) : option (list elem) := contents (mem w) (at_ w p).

(** A new array with these elements and this much room after them. *)
Definition fresh (vs : list elem) (spare : nat) (m : memory) : memory * header :=
  (mkMemory (S (next m)) (fun a i => if Nat.eqb a (next m) then nth i vs EZero else cell m a i),
   mkHeader (next m) 0 (List.length vs) (List.length vs + spare)).

Definition set_cell (a i : nat) (v : elem) (m : memory) : memory :=
  mkMemory (next m) (fun b j => if Nat.eqb b a && Nat.eqb j i then v else cell m b j).

Section Lists.
  Context {F : FloatIO}.
  (** How much room [append] leaves in a new array, by the length before; the Go specification leaves it open. *)
  Variable grow : nat -> nat.

  (** append(s, v): in place if the capacity allows it, else into a new array. *)
  Definition push (s : slice) (v : elem) (m : memory) : memory * slice :=
    match s with
    | None => let (m', h) := fresh [v] (grow 0) m in (m', Some h)
    | Some h =>
      if Nat.ltb (len h) (cap h) then (set_cell (arr h) (off h + len h) v m, Some (mkHeader (arr h) (off h) (S (len h)) (cap h)))
      else let (m', h') := fresh (window m h ++ [v]) (grow (len h)) m in (m', Some h')
    end.

  (** p = append(p, v) *)
  Definition append_at (p : place) (v : elem) (w : world) : world :=
    let (m, s) := push (at_ w p) v (mem w) in put p s (mkWorld m (at_ w)).

  (** p = a new slice *)
  Definition fresh_at (p : place) (vs : list elem) (spare : nat) (w : world) : world :=
    let (m, h) := fresh vs spare (mem w) in put p (Some h) (mkWorld m (at_ w)).

  (** string-list.go:8-26 AsStringList: a new slice of the capacity of the sequence, assigned if all went well *)
  Definition read_list (p : place) (n : node) (w : world) : world * res unit :=
    match seq_for_each string_list_step [] n with
    | (tmp, Ok _) => (fresh_at p (map EStr tmp) 0 w, Ok tt)
    | (_, e) => (w, e)
    end.

  (** One element read and appended. *)
  Definition read_push (p : place) (r : res elem) (w : world) : world * res unit :=
    match r with Ok v => (append_at p v w, Ok tt) | Err => (w, Err) | Panic => (w, Panic) end.

  (** The entry of one list.  APISpec.go:405-423, x-gen-type-file.go:274-275; x-gen-type-string.go:262-272 and its siblings, [kd] being the kind of
      the type. *)
  Definition read_field (kd : dkind) (o : nat) (f : field) (n : node) (w : world) : world * res unit :=
    let p := Field o f in
    match f with
    | FProtocols | FSecuredBy | FFileTypes => read_list p n w
    | FMediaTypes => if is_string n then (append_at p (EStr (value n)) w, Ok tt) else read_list p n w
    | FDocumentation => seq_for_each (fun w v => read_push p (do d <- doc_unmarshal v new_doc; Ok (EDoc d)) w) w n
    | FEnum => seq_for_each (fun w v => read_push p (do x <- enum_elem kd v; Ok (EVal x)) w) w n
    end.

  (** The list behind a key of an API document: APISpec.go:405-423. *)
  Definition api_field (k : node) : option field :=
    if negb (is_string k) then None
    else if String.eqb (value k) KeyProtocols then Some FProtocols
    else if String.eqb (value k) KeyMediaType then Some FMediaTypes
    else if String.eqb (value k) KeyDocumentation then Some FDocumentation
    else if String.eqb (value k) KeySecuredBy then Some FSecuredBy
    else None.

  (** APISpec.go:372-447 assign, what it does to the lists.  Whether an entry of another key succeeds does not depend on the object, so an empty one
      is used ([api_outcome], ListProofs.v). *)
  Definition api_entry (o : nat) (w : world) (e : node * node) : world * res unit :=
    match api_field (fst e) with
    | Some f => read_field TyAny o f (snd e) w
    | None => (w, snd (api_assign_into new_api e))
    end.

  (** APISpec.go:352-354 UnmarshalYAML *)
  Definition read_api (o : nat) (n : node) (w : world) : world * res unit := map_for_each (api_entry o) w n.

  (** The list behind a key of a type definition: x-gen-type-*.go assign, x-gen-type-file.go:274.  Types nil and include have none. *)
  Definition type_field (kd : dkind) (k : node) : option field :=
    match new_type kd with
    | TBase _ => None
    | TExt _ _ _ _ s =>
      if String.eqb (value k) KeyEnum then Some FEnum
      else match s with
           | SFile _ _ _ => if String.eqb (value k) KeyFileTypes then Some FFileTypes else None
           | _ => None
           end
    end.

  (** x-gen-type-*.go assign, what it does to the lists; as above. *)
  Definition type_entry (kd : dkind) (o : nat) (w : world) (e : node * node) : world * res unit :=
    match type_field kd (fst e) with
    | Some f => read_field kd o f (snd e) w
    | None => (w, snd (type_assign_into (new_type kd) e))
    end.

  (** DataType.go:77-92 UnmarshalRAML *)
  Definition read_type (kd : dkind) (o : nat) (n : node) (w : world) : world * res unit :=
    if is_string n then (w, Ok tt)
    else match n with Map _ l => loop (type_entry kd o) w l | _ => (w, Err) end.

  (** What a program can do with lists and objects.  Where Go panics (an index or a bound out of range) nothing happens. *)
  Inductive action : Type :=
  | Make (x : nat) (vs : list elem) (spare : nat)        (* x = append(make([]T, 0, len(vs) + spare), vs...) *)
  | Nil (x : nat)                                        (* x = nil *)
  | Get (x : nat) (o : nat) (f : field)                  (* x = o.Protocols() ... *)
  | Set_ (o : nat) (f : field) (x : nat)                 (* o.SetProtocols(x) ... *)
  | Write (x : nat) (i : nat) (v : elem)                 (* x[i] = v *)
  | Append (x : nat) (v : elem)                          (* x = append(x, v) *)
  | Cut (x y : nat) (i j k : nat)                        (* x = y[i:j:k] *)
  | ReadApi (o : nat) (n : node)                         (* o.UnmarshalYAML(n) *)
  | ReadType (kd : dkind) (o : nat) (n : node).          (* o.UnmarshalRAML(n) *)

  Definition act (a : action) (w : world) : world :=
    match a with
    | Make x vs spare => fresh_at (Held x) vs spare w
    | Nil x => put (Held x) None w
    (* APISpec.go:105-145, 266-268; x-gen-type-*.go Enum; x-gen-type-file.go:190-192: return the field *)
    | Get x o f => put (Held x) (at_ w (Field o f)) w
    (* APISpec.go:109-150, 270-273; x-gen-type-*.go SetEnum; x-gen-type-file.go:194-197: assign to the field *)
    | Set_ o f x => put (Field o f) (at_ w (Held x)) w
    | Write x i v =>
      match at_ w (Held x) with
      | Some h => if Nat.ltb i (len h) then mkWorld (set_cell (arr h) (off h + i) v (mem w)) (at_ w) else w
      | None => w
      end
    | Append x v => append_at (Held x) v w
    | Cut x y i j k =>
      match at_ w (Held y) with
      | Some h => if Nat.leb i j && Nat.leb j k && Nat.leb k (cap h) then put (Held x) (Some (mkHeader (arr h) (off h + i) (j - i) (k - i))) w else w
      | None => if Nat.eqb i 0 && Nat.eqb j 0 && Nat.eqb k 0 then put (Held x) None w else w
      end
    | ReadApi o n => fst (read_api o n w)
    | ReadType kd o n => fst (read_type kd o n w)
    end.

  Definition run (l : list action) (w : world) : world := fold_left (fun w a => act a w) l w.

  (** Nothing there yet. *)
  Definition start : world := mkWorld (mkMemory 0 (fun _ _ => EZero)) (fun _ => None).
End Lists.
