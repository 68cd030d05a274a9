(** Type definitions as Go holds them: by reference.  Elsewhere in the model a type definition is a value with the types below it inside.  Here it is an address
    in a heap, so one type (or one map of types) may be used in several places, also below itself.
    Simplified: the maps that hold no types (annotations, extra facets, examples) stay values. *)
From Coq Require Import SpecFloat.
From Verif Require Import Base Num OMap OMapSpec Keys Yaml Values Assign Formats Meta Out Xml Example DataType Marshal Doc Api Library Setters.

(** The part of one kind.  x-gen-type-array.go:36-47 [items] is a DataType, that is, a reference; x-gen-type-object.go:36-49 [properties] is a PropertyMap, a
    reference to a map.  [Empty_set]: no other kind holds types. *)
Inductive hspec : Type :=
| HArray (unique : bool) (minItems maxItems : Z) (items : option nat)
| HObject (properties : nat) (minProps maxProps : option Z) (addtlProps : bool) (discrim : option string) (discrimVal : option gval)
| HOther (s : spec Empty_set).

(** DataType.go:21-28, type-datatype-ext.go:21-30 ([facets] is a FacetMap, a reference to a map) *)
Inductive htype : Type :=
| HBase (b : base)
| HExt (b : base) (x : ext) (facets : nat) (c : common) (s : hspec).

(** The type definitions; the maps with types in them (PropertyMap, DataTypeMap, and the values of a FacetMap); the FacetMaps, with references to such maps.
    A reference is a position. *)
Record world : Type := mkWorld { w_types : list htype; w_maps : list (amap string nat); w_facets : list (amap string nat) }.

(** ** What is behind a reference *)

Definition obind {A B} (o : option A) (f : A -> option B) : option B := match o with Some a => f a | None => None end.

Fixpoint all_some {A B} (f : A -> option B) (l : list A) : option (list B) :=
  match l with
  | [] => Some []
  | a :: l => obind (f a) (fun b => option_map (cons b) (all_some f l))
  end.

(** A function on the values of a map. *)
Definition map_some {A B} (f : A -> option B) (m : amap string A) : option (amap string B) :=
  option_map (fun l => mkMap l (oord m)) (all_some (fun e => option_map (pair (fst e)) (f (snd e))) (ents m)).

(** One type definition with its maps, and the types below it still as references. *)
Inductive shape (T : Type) : Type :=
| ShBase (b : base)
| ShExt (b : base) (x : ext) (facets : amap string (amap string T)) (c : common) (s : spec T).
Arguments ShBase {T}.
Arguments ShExt {T}.

(** Arrays and objects are not among the other kinds. *)
Definition other_spec {T} (s : spec Empty_set) : spec T :=
  match s with
  | SNone | SArray _ _ _ _ | SObject _ _ _ _ _ _ => SNone
  | SDatetime f => SDatetime f
  | SFile t mn mx => SFile t mn mx
  | SInteger f mn mx mu => SInteger f mn mx mu
  | SNumber f mn mx mu => SNumber f mn mx mu
  | SString p mn mx => SString p mn mx
  end.

Definition load_spec (w : world) (s : hspec) : option (spec nat) :=
  match s with
  | HArray u mn mx it => Some (SArray u mn mx it)
  | HObject p mn mx ad di dv => option_map (fun m => SObject m mn mx ad di dv) (nth_error (w_maps w) p)
  | HOther s => Some (other_spec s)
  end.

(** [None]: nothing is at the address, a nil pointer. *)
Definition load (w : world) (r : nat) : option (shape nat) :=
  obind (nth_error (w_types w) r) (fun t =>
  match t with
  | HBase b => Some (ShBase b)
  | HExt b x f c s =>
    obind (nth_error (w_facets w) f) (fun fm =>
    obind (map_some (nth_error (w_maps w)) fm) (fun fs =>
    obind (load_spec w s) (fun sp => Some (ShExt b x fs c sp))))
  end).

(** ** Writing *)

Section HeapWrite.
  Context {F : FloatIO}.

  (** DataType.go:50-61 ToYAML, with [depth] levels of the stack left.  With no level left the program stops: the stack overflow of Go cannot be recovered from. *)
  Fixpoint h_to_yaml (depth : nat) (w : world) (r : nat) : res node :=
    match depth with
    | O => Panic
    | S depth =>
      match load w r with
      | None => Panic
      | Some (ShBase b) => short_or_full (short_marshal b [])
      | Some (ShExt b x f c s) => short_or_full (full_marshal (h_to_yaml depth w) b x f c s [])
      end
    end.

  (** DataTypeMap.go ToYAML, for the types of an API document or a library *)
  Definition h_types_to_yaml (depth : nat) (w : world) (m : nat) : res node :=
    match nth_error (w_maps w) m with
    | None => Panic
    | Some mm => types_to_yaml (h_to_yaml depth w) mm
    end.
End HeapWrite.

(** ** The calls of a program *)

Fixpoint set_nth {A} (i : nat) (a : A) (l : list A) : list A :=
  match i, l with
  | _, [] => []
  | O, _ :: l => a :: l
  | S i, b :: l => b :: set_nth i a l
  end.

Definition put_type (r : nat) (t : htype) (w : world) : world := mkWorld (set_nth r t (w_types w)) (w_maps w) (w_facets w).
Definition put_map (m : nat) (mm : amap string nat) (w : world) : world := mkWorld (w_types w) (set_nth m mm (w_maps w)) (w_facets w).
Definition put_facets (f : nat) (fm : amap string nat) (w : world) : world := mkWorld (w_types w) (w_maps w) (set_nth f fm (w_facets w)).
(** A new object goes to the end; its address is the length before. *)
Definition new_at_end_type (t : htype) (w : world) : world := mkWorld (w_types w ++ [t]) (w_maps w) (w_facets w).
Definition new_at_end_map (mm : amap string nat) (w : world) : world := mkWorld (w_types w) (w_maps w ++ [mm]) (w_facets w).
Definition new_at_end_facets (fm : amap string nat) (w : world) : world := mkWorld (w_types w) (w_maps w) (w_facets w ++ [fm]).

(** The setters that take no type: those of Setters.v, through the reference. *)
Definition hspec_apply (op : type_op) (s : hspec) : hspec :=
  match s with
  | HArray u mn mx it =>
    match op with
    | TSetUniqueItems b => HArray b mn mx it
    | TSetMinItems z => HArray u z mx it
    | TSetMaxItems z => HArray u mn z it
    | TUnsetItems => HArray u mn mx None
    | _ => s
    end
  | HObject p mn mx ad di dv =>
    match op with
    | TSetMinProperties z => HObject p (Some z) mx ad di dv
    | TUnsetMinProperties => HObject p None mx ad di dv
    | TSetMaxProperties z => HObject p mn (Some z) ad di dv
    | TUnsetMaxProperties => HObject p mn None ad di dv
    | TSetAdditionalProperties b => HObject p mn mx b di dv
    | TSetDiscriminator s => HObject p mn mx ad (Some s) dv
    | TUnsetDiscriminator => HObject p mn mx ad None dv
    | TSetDiscriminatorValue v => HObject p mn mx ad di (Some v)
    | TUnsetDiscriminatorValue => HObject p mn mx ad di None
    | _ => s
    end
  | HOther s => HOther (own_apply op s)
  end.

Definition htype_apply (op : type_op) (t : htype) : htype :=
  match t with
  | HBase b => t
  | HExt b x f c s => HExt (base_apply op b) (ext_apply op x) f (common_apply op c) (hspec_apply op s)
  end.

Inductive h_op : Type :=
| HNewMap | HNewFacetMap
| HNewType (k : dkind)
| HSet (r : nat) (op : type_op)                    (* a setter that takes no type *)
| HSetItems (r : nat) (i : option nat)             (* x-gen-type-array.go SetItems; nil is UnsetItems *)
| HSetProperties (r : nat) (m : option nat)        (* x-gen-type-object.go SetProperties; nil is UnsetProperties: a new map *)
| HSetFacetDefinitions (r : nat) (f : option nat)  (* SetFacetDefinitions; nil is UnsetFacetDefinitions: a new map *)
| HMap (m : nat) (edit : amap string nat -> amap string nat)     (* Put, Delete, ... on a map of types *)
| HFacetMap (f : nat) (edit : amap string nat -> amap string nat).

(** New<Kind>Type: with maps of its own. *)
Definition h_new (k : dkind) (w : world) : world :=
  match k with
  | TyNil | TyInclude => new_at_end_type (HBase (new_base k)) w
  | _ =>
    let f := List.length (w_facets w) in
    let m := List.length (w_maps w) in
    let w := new_at_end_facets anew w in
    match k with
    | TyArray => new_at_end_type (HExt (new_base k) new_ext f new_common (HArray ArrayDefaultUniqueItems ArrayDefaultMinItems ArrayDefaultMaxItems None)) w
    | TyObject => new_at_end_type (HExt (new_base k) new_ext f new_common (HObject m None None true None None)) (new_at_end_map anew_unordered w)
    | TyDatetime => new_at_end_type (HExt (new_base k) new_ext f new_common (HOther (SDatetime None))) w
    | TyFile => new_at_end_type (HExt (new_base k) new_ext f new_common (HOther (SFile None FileDefaultMinLength FileDefaultMaxLength))) w
    | TyInteger => new_at_end_type (HExt (new_base k) new_ext f new_common (HOther (SInteger None None None None))) w
    | TyNumber => new_at_end_type (HExt (new_base k) new_ext f new_common (HOther (SNumber None None None None))) w
    | TyString => new_at_end_type (HExt (new_base k) new_ext f new_common (HOther (SString None StringDefaultMinLength None))) w
    | _ => new_at_end_type (HExt (new_base k) new_ext f new_common (HOther SNone)) w
    end
  end.

(** A call on a nil pointer, or of a method the object does not have, has no effect here. *)
Definition h_apply (o : h_op) (w : world) : world :=
  match o with
  | HNewMap => new_at_end_map blank w
  | HNewFacetMap => new_at_end_facets blank w
  | HNewType k => h_new k w
  | HSet r op => match nth_error (w_types w) r with Some t => put_type r (htype_apply op t) w | None => w end
  | HSetItems r i =>
    match nth_error (w_types w) r with
    | Some (HExt b x f c (HArray u mn mx _)) => put_type r (HExt b x f c (HArray u mn mx i)) w
    | _ => w
    end
  | HSetProperties r m =>
    match nth_error (w_types w) r with
    | Some (HExt b x f c (HObject _ mn mx ad di dv)) =>
      match m with
      | Some m => put_type r (HExt b x f c (HObject m mn mx ad di dv)) w
      | None => put_type r (HExt b x f c (HObject (List.length (w_maps w)) mn mx ad di dv)) (new_at_end_map blank w)
      end
    | _ => w
    end
  | HSetFacetDefinitions r m =>
    match nth_error (w_types w) r with
    | Some (HExt b x _ c s) =>
      match m with
      | Some f => put_type r (HExt b x f c s) w
      | None => put_type r (HExt b x (List.length (w_facets w)) c s) (new_at_end_facets blank w)
      end
    | _ => w
    end
  | HMap m edit => match nth_error (w_maps w) m with Some mm => put_map m (edit mm) w | None => w end
  | HFacetMap f edit => match nth_error (w_facets w) f with Some fm => put_facets f (edit fm) w | None => w end
  end.
