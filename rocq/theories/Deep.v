(** Documents and the definitions in them, by reference, to any depth: the vocabulary of C76.  The memory is that of Heap.v; a document is known by the address of
    its map of types.
    Simplified: as in Heap.v, the maps that hold no types stay values. *)
From Coq Require Import SpecFloat.
From Verif Require Import Base Num OMap OMapSpec Keys Yaml Values Assign Formats Meta Out Xml Example DataType Marshal Doc Api Library Setters Heap HeapSpec Live.

(** ** What can be reached from a document: definitions, maps of definitions, and maps of such maps *)

Inductive part : Type := PDef (d : dtype) | PTypes (m : amap string dtype) | PFacets (m : amap string (amap string dtype)).

(** The getters that lead on: Get(k) of any of the maps, DataTypeMap.go, PropertyMap.go, FacetMap.go; Items(), x-gen-type-array.go; Properties(),
    x-gen-type-object.go; FacetDefinitions(), type-datatype-ext.go. *)
Inductive getter : Type := GGet (k : string) | GItems | GProperties | GFacetDefinitions.

Definition get_part (g : getter) (p : part) : option part :=
  match g, p with
  | GGet k, PTypes m => option_map PDef (sget String.eqb k (ents m))
  | GGet k, PFacets m => option_map PTypes (sget String.eqb k (ents m))
  | GItems, PDef (TExt _ _ _ _ (SArray _ _ _ it)) => option_map PDef it
  | GProperties, PDef (TExt _ _ _ _ (SObject m _ _ _ _ _)) => Some (PTypes m)
  | GFacetDefinitions, PDef (TExt _ _ fs _ _) => Some (PFacets fs)
  | _, _ => None
  end.

(** [q] in the place the getter leads to. *)
Definition put_part (g : getter) (q p : part) : part :=
  match g, q, p with
  | GGet k, PDef d, PTypes m => PTypes (mkMap (sreplace String.eqb k d (ents m)) (oord m))
  | GGet k, PTypes d, PFacets m => PFacets (mkMap (sreplace String.eqb k d (ents m)) (oord m))
  | GItems, PDef d, PDef (TExt b x fs c (SArray u mn mx _)) => PDef (TExt b x fs c (SArray u mn mx (Some d)))
  | GProperties, PTypes m, PDef (TExt b x fs c (SObject _ mn mx ad di dv)) => PDef (TExt b x fs c (SObject m mn mx ad di dv))
  | GFacetDefinitions, PFacets m, PDef (TExt b x _ c s) => PDef (TExt b x m c s)
  | _, _, _ => p
  end.

(** ** Edits *)

(** A setter of a definition, with all of type_op of Setters.v; a method of a map of definitions; a method of a FacetMap. *)
Inductive deep_op : Type := DSet (op : type_op) | DTypes (o : op string dtype) | DFacets (o : op string (amap string dtype)).

Definition edit_part (e : deep_op) (p : part) : part :=
  match e, p with
  | DSet op, PDef d => PDef (type_apply op d)
  | DTypes o, PTypes m => PTypes (map_edit String.eqb o m)
  | DFacets o, PFacets m => PFacets (map_edit String.eqb o m)
  | _, _ => p
  end.

(** The edit in the place the getters lead to; no place, no edit. *)
Fixpoint edit_at (gs : list getter) (e : deep_op) (p : part) : part :=
  match gs with
  | [] => edit_part e p
  | g :: gs => match get_part g p with Some q => put_part g (edit_at gs e q) p | None => p end
  end.

(** ** The same by reference *)

(** New objects with the given contents, no two of them used twice: what a reader makes of a document, and what a program makes with New...Type and New...Map. *)
Definition make_list {A} (f : A -> world -> world * nat) : list (string * A) -> world -> world * list (string * nat) :=
  fix go l w :=
    match l with
    | [] => (w, [])
    | (k, a) :: l => let '(w, r) := f a w in let '(w, l) := go l w in (w, (k, r) :: l)
    end.
Definition make_map {A} (f : A -> world -> world * nat) (m : amap string A) (w : world) : world * nat :=
  let '(w, l) := make_list f (ents m) w in (new_at_end_map (mkMap l (oord m)) w, List.length (w_maps w)).
Definition make_facets {A} (f : A -> world -> world * nat) (m : amap string (amap string A)) (w : world) : world * nat :=
  let '(w, l) := make_list (make_map f) (ents m) w in (new_at_end_facets (mkMap l (oord m)) w, List.length (w_facets w)).
Definition make_spec {A} (f : A -> world -> world * nat) (s : spec A) (w : world) : world * hspec :=
  match s with
  | SNone => (w, HOther SNone)
  | SArray u mn mx None => (w, HArray u mn mx None)
  | SArray u mn mx (Some t) => let '(w, r) := f t w in (w, HArray u mn mx (Some r))
  | SDatetime fm => (w, HOther (SDatetime fm))
  | SFile t mn mx => (w, HOther (SFile t mn mx))
  | SInteger fm mn mx mu => (w, HOther (SInteger fm mn mx mu))
  | SNumber fm mn mx mu => (w, HOther (SNumber fm mn mx mu))
  | SObject ps mn mx ad di dv => let '(w, p) := make_map f ps w in (w, HObject p mn mx ad di dv)
  | SString p mn mx => (w, HOther (SString p mn mx))
  end.
Fixpoint make (d : dtype) (w : world) : world * nat :=
  match d with
  | TBase b => (new_at_end_type (HBase b) w, List.length (w_types w))
  | TExt b x fs c s =>
    let '(w, f) := make_facets make fs w in
    let '(w, h) := make_spec make s w in
    (new_at_end_type (HExt b x f c h) w, List.length (w_types w))
  end.

(** The call of a map's method with a new object for its argument. *)
Definition make_op {A} (f : A -> world -> world * nat) (o : op string A) (w : world) : world * op string nat :=
  match o with
  | OPut k v => let '(w, r) := f v w in (w, OPut k r)
  | OPutIfNotNil k None => (w, OPutIfNotNil k None)
  | OPutIfNotNil k (Some v) => let '(w, r) := f v w in (w, OPutIfNotNil k (Some r))
  | OReplaceOrPut k v => let '(w, r) := f v w in (w, OReplaceOrPut k r)
  | OReplaceIfExists k v => let '(w, r) := f v w in (w, OReplaceIfExists k r)
  | ODelete k => (w, ODelete k)
  | OSerializeOrdered b => (w, OSerializeOrdered b)
  | OGet k => (w, OGet k)
  | OGetOpt k => (w, OGetOpt k)
  | OHas k => (w, OHas k)
  | OLen => (w, OLen)
  | OAt j => (w, OAt j)
  | OIndexOf k => (w, OIndexOf k)
  | OForEach => (w, OForEach)
  end.

(** A setter on the definition at [r]; what it is given is new.  The calls are those of Heap.v. *)
Definition h_setter (op : type_op) (r : nat) (w : world) : world :=
  match op with
  | TSetItems (Some d) => let '(w, i) := make d w in h_apply (HSetItems r (Some i)) w
  | TSetItems None => h_apply (HSetItems r None) w
  | TSetProperties (Some ds) => let '(w, m) := make_map make ds w in h_apply (HSetProperties r (Some m)) w
  | TSetProperties None | TUnsetProperties => h_apply (HSetProperties r None) w
  | TSetFacetDefinitions (Some fs) => let '(w, f) := make_facets make fs w in h_apply (HSetFacetDefinitions r (Some f)) w
  | TSetFacetDefinitions None | TUnsetFacetDefinitions => h_apply (HSetFacetDefinitions r None) w
  | _ => h_apply (HSet r op) w
  end.

Definition h_edit (e : deep_op) (a : addr) (w : world) : world :=
  match e, a with
  | DSet op, AType r => h_setter op r w
  | DTypes o, AMap m => let '(w, o) := make_op make o w in h_apply (HMap m (map_edit String.eqb o)) w
  | DFacets o, AFacets f => let '(w, o) := make_op (make_map make) o w in h_apply (HFacetMap f (map_edit String.eqb o)) w
  | _, _ => w
  end.

Definition h_get (w : world) (g : getter) (a : addr) : option addr :=
  match a with
  | AMap m => match g with GGet k => obind (nth_error (w_maps w) m) (fun mm => option_map AType (sget String.eqb k (ents mm))) | _ => None end
  | AFacets f => match g with GGet k => obind (nth_error (w_facets w) f) (fun fm => option_map AMap (sget String.eqb k (ents fm))) | _ => None end
  | AType r =>
    match g, nth_error (w_types w) r with
    | GItems, Some (HExt _ _ _ _ (HArray _ _ _ it)) => option_map AType it
    | GProperties, Some (HExt _ _ _ _ (HObject p _ _ _ _ _)) => Some (AMap p)
    | GFacetDefinitions, Some (HExt _ _ f _ _) => Some (AFacets f)
    | _, _ => None
    end
  end.

(** A chain of getters: a.Types().Get("A").Properties().Get("b").Items() *)
Fixpoint h_walk (w : world) (gs : list getter) (a : addr) : option addr :=
  match gs with
  | [] => Some a
  | g :: gs => obind (h_get w g a) (h_walk w gs)
  end.

(** ** Programs *)

Inductive deep_use : Type :=
| Begin (ts : amap string dtype)                           (* a document is read, or made: its types *)
| Change (i : nat) (gs : list getter) (e : deep_op)        (* an edit below the types of document [i] *)
| NewTypes (i : nat) (ts : amap string dtype).             (* SetTypes with a new map *)

Definition deep_value (u : deep_use) (ds : list (amap string dtype)) : list (amap string dtype) :=
  match u with
  | Begin ts => ds ++ [ts]
  | Change i gs e => replace_nth i (fun ts => match edit_at gs e (PTypes ts) with PTypes ts' => ts' | _ => ts end) ds
  | NewTypes i ts => replace_nth i (fun _ => ts) ds
  end.
Definition deep_values (us : list deep_use) : list (amap string dtype) := fold_left (fun ds u => deep_value u ds) us [].

(** Documents by reference: the memory, and where the types of each document are. *)
Definition deep_ref (u : deep_use) (s : world * list nat) : world * list nat :=
  let '(w, ds) := s in
  match u with
  | Begin ts => let '(w, m) := make_map make ts w in (w, ds ++ [m])
  | Change i gs e =>
    match nth_error ds i with
    | Some m => match h_walk w gs (AMap m) with Some a => (h_edit e a w, ds) | None => (w, ds) end
    | None => (w, ds)
    end
  | NewTypes i ts => let '(w, m) := make_map make ts w in (w, replace_nth i (fun _ => m) ds)
  end.
Definition deep_refs (us : list deep_use) : world * list nat := fold_left (fun s u => deep_ref u s) us (no_objects, []).

(** The value of the map of types at an address, if nothing in it is deeper than [depth]. *)
Definition types_behind (depth : nat) (w : world) (m : nat) : option (amap string dtype) :=
  obind (nth_error (w_maps w) m) (map_some (tree depth w)).

(** After the program [us], the types of document [i] are [ts]: this is what one finds by following all references from it. *)
Definition types_are (us : list deep_use) (i : nat) (ts : amap string dtype) : Prop :=
  exists m, nth_error (snd (deep_refs us)) i = Some m /\ exists n0, forall n, (n0 <= n)%nat -> types_behind n (fst (deep_refs us)) m = Some ts.

(** Saving a document whose types are at [m] (APISpec.go:305-349, Library.go:174-210: the types are the last section): [a] is the document without them. *)
Section DeepWrite.
  Context {F : FloatIO}.
  Definition h_api_marshal (depth : nat) (w : world) (a : api) (m : nat) : res node :=
    match nth_error (w_maps w) m with
    | None => Panic
    | Some mm => out_to_yaml (oput_if (nonempty mm) (KStr KeyTypes) (h_types_to_yaml depth w m) (api_out (a_set_types blank a)))
    end.
  Definition h_lib_marshal (depth : nat) (w : world) (l : library) (m : nat) : res node :=
    match nth_error (w_maps w) m with
    | None => Panic
    | Some mm => out_to_yaml (oput_if (nonempty mm) (KStr KeyTypes) (h_types_to_yaml depth w m) (lib_out (l_set_types blank l)))
    end.
End DeepWrite.

(** A chain of getters, by value. *)
Fixpoint follow (gs : list getter) (p : part) : option part :=
  match gs with
  | [] => Some p
  | g :: gs => obind (get_part g p) (follow gs)
  end.

(** The two chains part: at some point they take different getters of the same object. *)
Inductive parting : list getter -> list getter -> Prop :=
| parting_here g h gs hs : g <> h -> parting (g :: gs) (h :: hs)
| parting_later g gs hs : parting gs hs -> parting (g :: gs) (g :: hs).

(** ** Maps have a key once *)

Definition all_of {A} (P : A -> Prop) : list (string * A) -> Prop :=
  fix go l := match l with [] => True | (_, a) :: l => P a /\ go l end.
Definition proper_map {A} (P : A -> Prop) (m : amap string A) : Prop := NoDup (map fst (ents m)) /\ all_of P (ents m).
Fixpoint proper (d : dtype) : Prop :=
  match d with
  | TBase _ => True
  | TExt _ _ fs _ s =>
    proper_map (proper_map proper) fs /\
    match s with
    | SArray _ _ _ (Some t) => proper t
    | SObject ps _ _ _ _ _ => proper_map proper ps
    | _ => True
    end
  end.
Definition given {A} (P : A -> Prop) (o : op string A) : Prop :=
  match o with
  | OPut _ v | OPutIfNotNil _ (Some v) | OReplaceOrPut _ v | OReplaceIfExists _ v => P v
  | _ => True
  end.
Definition proper_op (e : deep_op) : Prop :=
  match e with
  | DSet (TSetItems (Some d)) => proper d
  | DSet (TSetProperties (Some m)) => proper_map proper m
  | DSet (TSetFacetDefinitions (Some m)) => proper_map (proper_map proper) m
  | DSet _ => True
  | DTypes o => given proper o
  | DFacets o => given (proper_map proper) o
  end.
Definition proper_use (u : deep_use) : Prop :=
  match u with
  | Begin ts | NewTypes _ ts => proper_map proper ts
  | Change _ _ e => proper_op e
  end.
