(** v0/internal/util/assign and the map readers util-str-map.go, util-untyped-map.go, util-ann-map.go, util-dt-map.go.

    A helper that assigns through a pointer is a function from the node and the old target to the new target and the
    outcome, so that what happens to the target on an error is visible. *)
From Coq Require Import SpecFloat.
From Verif Require Import Base Num OMap OMapSpec Keys Yaml Values.

(** [if val, err := conv(v); err != nil { return err } else { *ptr = f val }; return nil] *)
Definition assign_with {A B} (conv : node -> res A) (f : A -> B) (v : node) (ptr : B) : B * res unit :=
  match conv v with
  | Ok a => (f a, Ok tt)
  | Err => (ptr, Err)
  | Panic => (ptr, Panic)
  end.

(** bool.go:9-17 AsBool, 20-28 AsBoolPtr *)
Definition as_bool : node -> bool -> bool * res unit := assign_with to_bool (fun b => b).
Definition as_bool_ptr : node -> option bool -> option bool * res unit := assign_with to_bool Some.

(** string.go:8-16 AsString, 18-27 AsStringPtr *)
Definition as_string : node -> string -> string * res unit := assign_with to_str (fun s => s).
Definition as_string_ptr : node -> option string -> option string * res unit := assign_with to_str Some.

(** int64.go:8-16 AsInt64Ptr *)
Definition as_int64_ptr : node -> option Z -> option Z * res unit := assign_with to_int Some.

(** float64.go:8-16 AsFloat64Ptr *)
Definition as_float64_ptr {F : FloatIO} : node -> option spec_float -> option spec_float * res unit :=
  assign_with to_float Some.

(** uint.go:9-17 ToUint, 20-29 AsUintPtr *)
Definition to_uint : node -> Z -> Z * res unit := assign_with to_int uint_of_int64.
Definition as_uint_ptr : node -> option Z -> option Z * res unit :=
  assign_with to_int (fun z => Some (uint_of_int64 z)).

(** string-list.go:8-26 AsStringList.  [None] is a nil slice. *)
Definition string_list_step (tmp : list string) (v : node) : list string * res unit :=
  match to_str v with
  | Ok s => (tmp ++ [s], Ok tt)
  | Err => (tmp, Err)
  | Panic => (tmp, Panic)
  end.

Definition as_string_list (v : node) (ptr : option (list string)) : option (list string) * res unit :=
  match seq_for_each string_list_step [] v with
  | (tmp, Ok _) => (Some tmp, Ok tt)
  | (_, e) => (ptr, e)
  end.

(** The outcome as a value, for callers that give up on an error. *)
Definition run_assign {A} (r : A * res unit) : res A :=
  match r with (a, Ok _) => Ok a | (_, Err) => Err | (_, Panic) => Panic end.

(** The common shape of UnmarshalStringMapRAML (util-str-map.go:9-23), UnmarshalUntypedMapRAML
    (util-untyped-map.go:10-20), UnmarshalAnnotationMapRAML (util-ann-map.go:11-27), UnmarshalDataTypeMapRAML
    (util-dt-map.go:9-23), UnmarshalFacetMapRAML (util-facet-map.go:9-23), the example maps (util-ex-map.go:9-258) and
    assign.ToStringMap / ToUntypedMap (any-map.go:11-36): the key must be a string, the value is decoded, then Put.
    [M] is the map and [put] its Put. *)
Definition read_pair {M V} (put : string -> V -> M -> res M) (dec : node -> res V)
           (m : M) (e : node * node) : M * res unit :=
  match to_str (fst e) with
  | Ok k =>
    match dec (snd e) with
    | Ok v =>
      match put k v m with
      | Ok m' => (m', Ok tt)
      | Err => (m, Err)
      | Panic => (m, Panic)
      end
    | Err => (m, Err)
    | Panic => (m, Panic)
    end
  | Err => (m, Err)
  | Panic => (m, Panic)
  end.

Definition read_map {M V} (put : string -> V -> M -> res M) (dec : node -> res V) (m : M) (n : node)
  : M * res unit :=
  map_for_each (read_pair put dec) m n.

(** The same for maps as lists, dropping the state on errors: what the readers of larger things use. *)
Definition read_amap_pair {V} (dec : node -> res V) (m : amap string V) (e : node * node) : res (amap string V) :=
  do k <- to_str (fst e); do v <- dec (snd e); Ok (mput k v m).

Definition read_amap {V} (dec : node -> res V) (m : amap string V) (n : node) : res (amap string V) :=
  map_fold (read_amap_pair dec) m n.

(** util-untyped-map.go:10-20: the value is kept as the node it is. *)
Definition as_gnode (n : node) : res gval := Ok (GNode n).

(** raml.Annotation is an UntypedMap (pkg/raml/annotation); string to interface{} *)
Definition untyped : Type := amap string gval.

(** annotation.go:7-9 NewAnnotation and UnmarshalUntypedMapRAML into it; also in-components.go:31-35 *)
Definition read_annotation (n : node) : res untyped := read_amap as_gnode anew n.

(** in-components.go:26-40 hasAnnotations.in; [None] is "not used".  The index [k[0]] panics on the empty key. *)
Definition annotations_in (k : string) (v : node) (m : amap string untyped) : res (option (amap string untyped)) :=
  match k with
  | EmptyString => Panic
  | String c _ =>
    if Ascii.eqb c "(" then do a <- read_annotation v; Ok (Some (mput k a m)) else Ok None
  end.
