(** Reading into an object that may hold something already: UnmarshalYAML of API documents and libraries, UnmarshalRAML of types, examples, XML
    settings and documentation items, with what is left of the object when the reading stops half way.

    The readers of Api.v, Library.v, DataType.v, Example.v, Xml.v and Doc.v drop the state on an error; here it is kept.  A reader is a function from
    the node and the object to the object afterwards and the outcome. *)
From Coq Require Import SpecFloat.
From Verif Require Import Base Num OMap OMapSpec Keys Yaml Values Assign Formats Meta Out Xml Example Doc DataType Api Library.

(** A new value is made first, and assigned if that succeeded: [tmp := ...; if err != nil { return err }; x.field = tmp]. *)
Definition whole {A} (old : A) (r : res A) : A * res unit :=
  match r with Ok a => (a, Ok tt) | Err => (old, Err) | Panic => (old, Panic) end.

(** A field is changed in place: what has happened to it when the reading stops has happened to the object. *)
Definition inside {A B} (set : B -> A) (r : B * res unit) : A * res unit := (set (fst r), snd r).

(** Put into a map as a list. *)
Definition put_in {V} (k : string) (v : V) (m : amap string V) : res (amap string V) := Ok (mput k v m).

(** The functions of util-*-map.go, which put into the map they are given ([read_map], Assign.v). *)
Definition fill {V} (dec : node -> res V) (n : node) (m : amap string V) : amap string V * res unit := read_map put_in dec m n.

Section Into.
  Context {F : FloatIO}.

  (** Documentation.go:49-65 UnmarshalRAML *)
  Definition doc_into (n : node) (d : doc) : doc * res unit := map_for_each (fun d e => whole d (doc_assign d e)) d n.

  (** type-xml.go:97-99 UnmarshalRAML *)
  Definition xml_into (n : node) (x : xml) : xml * res unit := map_for_each (fun x e => whole x (xml_assign x e)) x n.

  Definition ex_set_value (v : gval) (e : ex) : ex := mkEx (ex_display e) (ex_descr e) (ex_anns e) (Some v) (ex_strict e) (ex_extra e).

  (** x-gen-ex-string.go:191-198 assignVal and its siblings.  For arrays (x-gen-ex-array.go:191-199) the slice is made before it is known whether the
      node is a sequence. *)
  Definition ex_val_into (kd : dkind) (n : node) (e : ex) : ex * res unit :=
    match kd, n with
    | TyArray, Seq _ _ => whole e (do v <- ex_val kd n; Ok (ex_set_value v e))
    | TyArray, _ => (ex_set_value (GList []) e, Err)
    | _, _ => whole e (do v <- ex_val kd n; Ok (ex_set_value v e))
    end.

  (** x-gen-ex-string.go:144-181 assign *)
  Definition ex_assign_into (kd : dkind) (e : ex) (p : node * node) : ex * res unit :=
    if is_string (fst p) && String.eqb (value (fst p)) KeyValue then ex_val_into kd (snd p) e
    else whole e (ex_assign kd e p).

  (** x-gen-ex-string.go:115-122 UnmarshalRAML and its siblings *)
  Definition ex_into (kd : dkind) (n : node) (e : ex) : ex * res unit :=
    match n with
    | Map _ l => loop (ex_assign_into kd) e l
    | _ => ex_val_into kd n e
    end.

  (** x-gen-type-array.go:279-283 and its siblings: append in the loop *)
  Definition enum_in (kd : dkind) (n : node) (old : option (list gval)) : option (list gval) * res unit :=
    seq_for_each (fun acc cur => whole acc (do v <- enum_elem kd cur; Ok (Some (opt_list acc ++ [v])))) old n.

  (** x-gen-type-array.go:264-306 assign and its siblings.  The examples, the enum, the properties (x-gen-type-object.go:331) and the facets
      (type-datatype-ext.go:81-82) are changed in place; all else is assigned whole ([type_assign], DataType.v). *)
  Definition type_assign_into (d : dtype) (e : node * node) : dtype * res unit :=
    let k := value (fst e) in
    let v := snd e in
    match d with
    | TBase _ => whole d (type_assign hat d e)
    | TExt b x f c s =>
      if String.eqb k KeyExamples then
        inside (fun m => TExt b x f (mkCom (c_def c) (c_example c) m (c_enum c)) s) (fill (read_ex (b_kind b)) v (c_examples c))
      else if String.eqb k KeyEnum then
        inside (fun l => TExt b x f (mkCom (c_def c) (c_example c) (c_examples c) l) s) (enum_in (b_kind b) v (c_enum c))
      else if String.eqb k KeyFacets then
        inside (fun m => TExt b x m c s) (fill (DataType.read_types hat anew) v f)
      else
        match s with
        | SObject ps mn mx ad di dv =>
          if String.eqb k KeyProperties then
            inside (fun m => TExt b x f c (SObject m mn mx ad di dv)) (fill (fun v => do t <- hat v; as_property t) v ps)
          else whole d (type_assign hat d e)
        | _ => whole d (type_assign hat d e)
        end
    end.

  (** DataType.go:77-92 UnmarshalRAML *)
  Definition type_into (n : node) (d : dtype) : dtype * res unit :=
    if is_string n then (set_schema (value n) d, Ok tt)
    else
      match n with
      | Map _ l => loop type_assign_into d l
      | _ => (d, Err)
      end.

  (** APISpec.go:403-411: append in the loop *)
  Definition docs_in (n : node) (old : option (list doc)) : option (list doc) * res unit :=
    seq_for_each (fun acc cur => whole acc (read_doc acc cur)) old n.

  (** APISpec.go:372-447 assign.  The maps behind the keys and the documentation are changed in place; all else is assigned whole ([api_assign],
      Api.v). *)
  Definition api_assign_into (a : api) (e : node * node) : api * res unit :=
    let k := value (fst e) in
    let v := snd e in
    if negb (is_string (fst e)) then whole a (api_assign a e)
    else if String.eqb k KeyDocumentation then inside (fun x => a_set_documentation x a) (docs_in v (a_documentation a))
    else if String.eqb k KeyUses then inside (fun x => a_set_uses x a) (fill to_str v (a_uses a))
    else if String.eqb k KeySecuritySchemes then inside (fun x => a_set_securitySchemes x a) (fill as_gnode v (a_securitySchemes a))
    else if String.eqb k KeyBaseURIParams then inside (fun x => a_set_baseURIParameters x a) (fill as_gnode v (a_baseURIParameters a))
    else if String.eqb k KeyTraits then inside (fun x => a_set_traits x a) (fill as_gnode v (a_traits a))
    else if String.eqb k KeyAnnotationTypes then inside (fun x => a_set_annotationTypes x a) (fill as_gnode v (a_annotationTypes a))
    else if String.eqb k KeyResourceTypes then inside (fun x => a_set_resourceTypes x a) (fill as_gnode v (a_resourceTypes a))
    else if String.eqb k KeyTypes || String.eqb k KeySchemas then inside (fun x => a_set_types x a) (fill hat v (a_types a))
    else whole a (api_assign a e).

  (** APISpec.go:352-354 UnmarshalYAML *)
  Definition api_into (n : node) (a : api) : api * res unit := map_for_each api_assign_into a n.

  (** Library.go:212-246 assign *)
  Definition lib_assign_into (l : library) (e : node * node) : library * res unit :=
    let k := value (fst e) in
    let v := snd e in
    if String.eqb k KeyAnnotationTypes then inside (fun x => l_set_annotations x l) (fill read_annotation v (l_annotations l))
    else if String.eqb k KeyResourceTypes then inside (fun x => l_set_resourceTypes x l) (fill as_gnode v (l_resourceTypes l))
    else if String.eqb k KeyTypes || String.eqb k KeySchemas then inside (fun x => l_set_types x l) (fill hat v (l_types l))
    else if String.eqb k KeyTraits then inside (fun x => l_set_traits x l) (fill as_gnode v (l_traits l))
    else if String.eqb k KeyUses then inside (fun x => l_set_uses x l) (fill to_str v (l_uses l))
    else if String.eqb k KeySecuritySchemes then inside (fun x => l_set_securitySchemes x l) (fill as_gnode v (l_securitySchemes l))
    else whole l (lib_assign l e).

  (** Library.go:170-172 UnmarshalYAML *)
  Definition lib_into (n : node) (l : library) : library * res unit := map_for_each lib_assign_into l n.
End Into.
