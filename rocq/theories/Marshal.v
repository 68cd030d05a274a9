(** Writing type definitions: DataType.go:50-98, type-datatype-ext.go:52-73, the marshal methods of x-gen-type-*.go. *)
From Coq Require Import SpecFloat.
From Verif Require Import Base Num OMap OMapSpec Keys Yaml Values Assign Formats Meta Out Xml Example DataType.

Definition str_opt (o : option string) : option (res node) := option_map (fun s => Ok (str_node s)) o.
Definition int_opt (o : option Z) : option (res node) := option_map (fun z => Ok (int_node z)) o.
Definition float_opt {F : FloatIO} (o : option spec_float) : option (res node) :=
  option_map (fun f => Ok (float_node f)) o.

Section Marshal.
  Context {F : FloatIO}.
  (** The types below: values (here), or references to them (Heap.v); their ToYAML *)
  Context {T : Type}.
  Variable ty : T -> res node.

  (** DataType.go:94-98 marshal; in-components.go:58-60 *)
  Definition base_marshal (b : base) (o : outm) : outm :=
    let o := oput (KStr KeyType) (Ok (str_node (b_schema b))) o in
    oput_all (fun k => k) to_node (ents (b_extra b)) o.

  (** x-gen-type-include.go:29-38 marshal *)
  Definition include_marshal (b : base) (o : outm) : outm :=
    let o := oput (KStr KeyType) (Ok (Scal TInclude (b_schema b))) o in
    oput_all (fun k => k) to_node (ents (b_extra b)) o.

  (** ToYAML of the map of facet definitions, of properties, of examples *)
  Definition types_to_yaml (m : amap string T) : res node := map_to_yaml skey_node ty m.
  Definition facets_to_yaml (m : amap string (amap string T)) : res node :=
    map_to_yaml skey_node types_to_yaml m.
  Definition examples_to_yaml (m : amap string ex) : res node := map_to_yaml skey_node ex_to_yaml m.

  (** type-datatype-ext.go:52-73 marshal *)
  Definition ext_marshal (b : base) (x : ext) (f : amap string (amap string T)) (o : outm) : outm :=
    let o := oput_opt (KStr KeyDisplayName) (str_opt (x_display x)) o in
    let o := oput_opt (KStr KeyDescription) (str_opt (x_descr x)) o in
    let o := base_marshal b o in
    let o := oput_if (negb (x_required x)) (KStr KeyRequired) (Ok (bool_node (x_required x))) o in
    let o := oput_all KStr untyped_to_yaml (ents (x_anns x)) o in
    let o := oput_if (nonempty f) (KStr KeyFacets) (facets_to_yaml f) o in
    oput_opt (KStr KeyXML) (option_map xml_node (x_xml x)) o.

  (** x-gen-type-array.go:240-252, -datetime.go:206, -file.go:229-237, -integer.go:251-254, -number.go:251-254,
      -object.go:283-294, -string.go:233-237 *)
  Definition spec_marshal (s : spec T) (o : outm) : outm :=
    match s with
    | SNone => o
    | SArray u mn mx it =>
      let o := oput_if (negb (Bool.eqb u ArrayDefaultUniqueItems)) (KStr KeyUniqueItems) (Ok (bool_node u)) o in
      let o := oput_if (negb (mn =? ArrayDefaultMinItems)%Z) (KStr KeyMinItems) (Ok (int_node mn)) o in
      let o := oput_if (negb (mx =? ArrayDefaultMaxItems)%Z) (KStr KeyMaxItems) (Ok (int_node mx)) o in
      oput_opt (KStr KeyItems) (option_map ty it) o
    | SDatetime f => oput_opt (KStr KeyFormat) (str_opt f) o
    | SFile ft mn mx =>
      let o := oput_opt (KStr KeyFileTypes) (option_map (fun l => Ok (Seq TSeq (map str_node l))) ft) o in
      let o := oput_if (negb (mn =? FileDefaultMinLength)%Z) (KStr KeyMinLength) (Ok (int_node mn)) o in
      oput_if (negb (mx =? FileDefaultMaxLength)%Z) (KStr KeyMaxLength) (Ok (int_node mx)) o
    | SInteger f mn mx mu =>
      let o := oput_opt (KStr KeyFormat) (str_opt f) o in
      let o := oput_opt (KStr KeyMinimum) (int_opt mn) o in
      let o := oput_opt (KStr KeyMaximum) (int_opt mx) o in
      oput_opt (KStr KeyMultipleOf) (float_opt mu) o
    | SNumber f mn mx mu =>
      let o := oput_opt (KStr KeyFormat) (str_opt f) o in
      let o := oput_opt (KStr KeyMinimum) (float_opt mn) o in
      let o := oput_opt (KStr KeyMaximum) (float_opt mx) o in
      oput_opt (KStr KeyMultipleOf) (float_opt mu) o
    | SObject ps mn mx ad di dv =>
      let o := oput_if (negb ad) (KStr KeyAddtlProps) (Ok (bool_node ad)) o in
      let o := oput_opt (KStr KeyMinProperties) (int_opt mn) o in
      let o := oput_opt (KStr KeyMaxProperties) (int_opt mx) o in
      let o := oput_opt (KStr KeyDiscriminator) (str_opt di) o in
      let o := oput_opt (KStr KeyDiscriminatorVal) (option_map to_node dv) o in
      oput_if (nonempty ps) (KStr KeyProperties) (types_to_yaml ps) o
    | SString p mn mx =>
      let o := oput_opt (KStr KeyPattern) (str_opt p) o in
      let o := oput_if (0 <? mn)%Z (KStr KeyMinLength) (Ok (int_node mn)) o in
      oput_opt (KStr KeyMaxLength) (int_opt mx) o
    end.

  (** x-gen-type-nil.go, x-gen-type-include.go: the marshal of DataType or the one above *)
  Definition short_marshal (b : base) (o : outm) : outm :=
    match b_kind b with
    | TyInclude => include_marshal b o
    | _ => base_marshal b o
    end.

  (** x-gen-type-array.go:232-262 marshal and its siblings *)
  Definition full_marshal (b : base) (x : ext) (f : amap string (amap string T)) (c : common) (s : spec T) (o : outm) : outm :=
    let o := oput_opt (KStr KeyDefault) (option_map to_node (c_def c)) o in
    let o := ext_marshal b x f o in
    let o := spec_marshal s o in
    let o := oput_opt (KStr KeyEnum) (option_map (fun l => to_node (GList l)) (c_enum c)) o in
    let o := oput_opt (KStr KeyExample) (option_map ex_to_yaml (c_example c)) o in
    oput_if (nonempty (c_examples c)) (KStr KeyExamples) (examples_to_yaml (c_examples c)) o.

  (** DataType.go:67-75 MarshalRAML: whether the short form applies, and DataType.go:50-61 ToYAML *)
  Definition is_short (o : outm) : bool :=
    (List.length o =? 1)%nat && shas gkey_eqb (KStr KeyType) o.

  Definition short_or_full (o : outm) : res node :=
    if is_short o then
      match sget gkey_eqb (KStr KeyType) o with
      | Some r => r
      | None => Ok null_node
      end
    else out_to_yaml o.
End Marshal.

Definition type_marshal {F : FloatIO} (ty : dtype -> res node) (d : dtype) (o : outm) : outm :=
  match d with
  | TBase b => short_marshal b o
  | TExt b x f c s => full_marshal ty b x f c s o
  end.

Definition to_yaml_body {F : FloatIO} (ty : dtype -> res node) (d : dtype) : res node := short_or_full (type_marshal ty d []).

(** DataType.go:50-61 ToYAML *)
Fixpoint to_yaml {F : FloatIO} (d : dtype) {struct d} : res node := to_yaml_body (fun d' => to_yaml d') d.
