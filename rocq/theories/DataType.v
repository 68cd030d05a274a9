(** Type definitions: v0/internal/raml/DataType.go, type-datatype-ext.go, x-gen-type-*.go, fn-sorting-hat-type.go,
    util-dt-map.go, util-facet-map.go. *)
From Coq Require Import SpecFloat.
From Verif Require Import Base Num OMap OMapSpec Keys Yaml Values Assign Formats Meta Out Xml Example.

(** DataType.go:21-28; [self] is the type itself *)
Record base : Type := mkBase { b_schema : string; b_kind : dkind; b_extra : amap gkey gval }.

(** type-datatype-ext.go:21-30 without the embedded DataType and without [facets] *)
Record ext : Type := mkExt {
  x_display : option string;
  x_descr : option string;
  x_anns : amap string untyped;
  x_xml : option xml;
  x_required : bool
}.

(** The fields def, example, examples, enum that every x-gen-type file (but nil and include) has.
    Simplified: the Go types of [def] and of the elements of [enum] depend on the kind; here they are interface{} values.
    [None] in [c_enum] is a nil slice. *)
Record common : Type := mkCom {
  c_def : option gval;
  c_example : option ex;
  c_examples : amap string ex;
  c_enum : option (list gval)
}.

(** The fields of one kind: x-gen-type-array.go:36-47, -datetime.go, -file.go:36-46, -integer.go, -number.go:33-44,
    -object.go:36-49, -string.go:35-45. *)
Inductive spec (T : Type) : Type :=
| SNone
| SArray (unique : bool) (minItems maxItems : Z) (items : option T)
| SDatetime (format : option string)
| SFile (fileTypes : option (list string)) (minLength maxLength : Z)
| SInteger (format : option string) (minimum maximum : option Z) (multipleOf : option spec_float)
| SNumber (format : option string) (minimum maximum : option spec_float) (multipleOf : option spec_float)
| SObject (properties : amap string T) (minProps maxProps : option Z) (addtlProps : bool)
          (discrim : option string) (discrimVal : option gval)
| SString (pattern : option string) (minLength : Z) (maxLength : option Z).
Arguments SNone {T}.
Arguments SArray {T}.
Arguments SDatetime {T}.
Arguments SFile {T}.
Arguments SInteger {T}.
Arguments SNumber {T}.
Arguments SObject {T}.
Arguments SString {T}.

(** [TBase]: x-gen-type-nil.go, x-gen-type-include.go; [TExt]: the other kinds. *)
Inductive dtype : Type :=
| TBase (b : base)
| TExt (b : base) (x : ext) (facets : amap string (amap string dtype)) (c : common) (s : spec dtype).

Definition d_base (d : dtype) : base := match d with TBase b | TExt b _ _ _ _ => b end.

(** ** Constructors *)

(** DataType.go:12-19 NewDataType, in-components.go:45-47 *)
Definition new_base (k : dkind) : base := mkBase (kind_name k) k anew.

(** type-datatype-ext.go:12-19 NewExtendedDataType, in-components.go:10-12 *)
Definition new_ext : ext := mkExt None None anew None true.

(** [examples: NewXExampleMap(0)] then [SerializeOrdered(false)] *)
Definition new_common : common := mkCom None None anew_unordered None.

(** The kind specific part of NewArrayType (x-gen-type-array.go:16-30), NewFileType (17-30), NewObjectType (17-30),
    NewStringType (17-29) and the others *)
Definition new_spec (k : dkind) : spec dtype :=
  match k with
  | TyArray => SArray ArrayDefaultUniqueItems ArrayDefaultMinItems ArrayDefaultMaxItems None
  | TyDatetime => SDatetime None
  | TyFile => SFile None FileDefaultMinLength FileDefaultMaxLength
  | TyInteger => SInteger None None None None
  | TyNumber => SNumber None None None None
  | TyObject => SObject anew_unordered None None true None None
  | TyString => SString None StringDefaultMinLength None
  | _ => SNone
  end.

(** New<Kind>Type *)
Definition new_type (k : dkind) : dtype :=
  match k with
  | TyNil | TyInclude => TBase (new_base k)
  | _ => TExt (new_base k) new_ext anew new_common (new_spec k)
  end.

(** out.schema = s *)
Definition base_set_schema (s : string) (b : base) : base := mkBase s (b_kind b) (b_extra b).
Definition set_schema (s : string) (d : dtype) : dtype :=
  match d with
  | TBase b => TBase (base_set_schema s b)
  | TExt b x f c p => TExt (base_set_schema s b) x f c p
  end.

(** ** Classification *)

(** strings.HasPrefix and strings.IndexByte *)
Definition has_prefix (p s : string) : bool := String.prefix p s.
Fixpoint has_byte (c : ascii) (s : string) : bool :=
  match s with
  | EmptyString => false
  | String d t => Ascii.eqb d c || has_byte c t
  end.

(** fn-sorting-hat-type.go:60-107 typeToKind *)
Definition type_to_kind (s : string) : dtype :=
  if String.eqb s "any" then new_type TyAny
  else if String.eqb s "array" then new_type TyArray
  else if String.eqb s "boolean" then new_type TyBool
  else if String.eqb s "date-only" then new_type TyDateOnly
  else if String.eqb s "datetime" then new_type TyDatetime
  else if String.eqb s "datetime-only" then new_type TyDatetimeOnly
  else if String.eqb s "file" then new_type TyFile
  else if String.eqb s "integer" then new_type TyInteger
  else if String.eqb s "nil" then new_type TyNil
  else if String.eqb s "number" then new_type TyNumber
  else if String.eqb s "object" then new_type TyObject
  else if String.eqb s "string" then new_type TyString
  else if String.eqb s "time-only" then new_type TyTimeOnly
  else if has_prefix "!include " s then set_schema s (new_type TyInclude)
  else if has_byte "|" s then set_schema s (new_type TyUnion)
  else set_schema s (new_type TyCustom).

(** fn-sorting-hat-type.go:114-133, the scan of siftType: value of the first type/schema key, and the flags set before it *)
Fixpoint sift_scan (l : list (node * node)) (props items : bool) : option node * bool * bool :=
  match l with
  | [] => (None, props, items)
  | (k, v) :: t =>
    if String.eqb (value k) KeyType || String.eqb (value k) KeySchema then (Some v, props, items)
    else
      let props := props || String.eqb (value k) KeyProperties in
      let items := items || String.eqb (value k) KeyItems in
      sift_scan t props items
  end.

(** fn-sorting-hat-type.go:113-157 siftType *)
Definition sift_type (l : list (node * node)) : res dtype :=
  match sift_scan l false false with
  | (Some tmp, _, _) =>
    if is_string tmp then Ok (type_to_kind (value tmp))
    else if is_seq tmp then Err
    else match node_tag tmp with
         | TInclude => Ok (new_type TyInclude)
         | _ => Err
         end
  | (None, props, items) =>
    if props then Ok (new_type TyObject)
    else if items then Ok (new_type TyArray)
    else Ok (new_type TyString)
  end.

(** ** Assignment of one key of an expanded definition *)

(** DataType.go:100-113 assign, in-components.go:62-64 *)
Definition base_assign (b : base) (key val : node) : res base :=
  if String.eqb (value key) KeyType || String.eqb (value key) KeySchema then
    do s <- to_str val; Ok (base_set_schema s b)
  else Ok (mkBase (b_schema b) (b_kind b) (kput (KStr (value key)) (GNode val) (b_extra b))).

(** Element of an enum: ToString, ToBoolean, ToInt, ToFloat or the node itself. *)
Definition enum_elem {F : FloatIO} (k : dkind) (n : node) : res gval :=
  match k with
  | TyString | TyDateOnly | TyDatetime | TyDatetimeOnly | TyTimeOnly => do s <- to_str n; Ok (GStr s)
  | TyBool => do b <- to_bool n; Ok (GBool b)
  | TyInteger => do z <- to_int n; Ok (GInt z)
  | TyNumber => do f <- to_float n; Ok (GFloat f)
  | _ => Ok (GNode n)
  end.

Definition opt_list {A} (o : option (list A)) : list A := match o with Some l => l | None => [] end.

(** x-gen-type-array.go:279-283: append to the slice in the loop *)
Definition read_enum {F : FloatIO} (k : dkind) (old : option (list gval)) (n : node) : res (option (list gval)) :=
  seq_fold (fun acc cur => do v <- enum_elem k cur; Ok (Some (opt_list acc ++ [v]))) old n.

Section Assign.
  Context {F : FloatIO}.
  (** TypeSortingHat, on the nodes below *)
  Variable hat : node -> res dtype.

  (** util-dt-map.go:36 val.(raml.Property): nil and include types do not implement raml.Property *)
  Definition as_property (d : dtype) : res dtype :=
    match d with TBase _ => Panic | TExt _ _ _ _ _ => Ok d end.

  (** util-dt-map.go:25-39 UnmarshalPropertyMapRAML *)
  Definition read_properties (m : amap string dtype) (n : node) : res (amap string dtype) :=
    read_amap (fun v => do d <- hat v; as_property d) m n.

  (** util-dt-map.go:9-23 UnmarshalDataTypeMapRAML *)
  Definition read_types (m : amap string dtype) (n : node) : res (amap string dtype) := read_amap hat m n.

  (** util-facet-map.go:9-23 UnmarshalFacetMapRAML, type-facet.go:7-9 *)
  Definition read_facets (m : amap string (amap string dtype)) (n : node) : res (amap string (amap string dtype)) :=
    read_amap (read_types anew) m n.

  (** The second switch of the assign methods: x-gen-type-array.go:289-303, -datetime.go:247-255, -file.go:273-280,
      -integer.go:295-309, -number.go:294-308, -object.go:330-345, -string.go:278-285.  [None]: no case applies. *)
  Definition spec_assign (s : spec dtype) (k : string) (val : node) : option (res (spec dtype)) :=
    match s with
    | SNone => None
    | SArray u mn mx it =>
      if String.eqb k KeyUniqueItems then
        Some (do v <- run_assign (as_bool val u); Ok (SArray v mn mx it))
      else if String.eqb k KeyMinItems then
        Some (do v <- run_assign (to_uint val mn); Ok (SArray u v mx it))
      else if String.eqb k KeyMaxItems then
        Some (do v <- run_assign (to_uint val mx); Ok (SArray u mn v it))
      else if String.eqb k KeyItems then
        Some (do v <- hat val; Ok (SArray u mn mx (Some v)))
      else None
    | SDatetime f =>
      if String.eqb k KeyFormat then
        Some (do v <- date_format_hat val; Ok (SDatetime (Some v)))
      else None
    | SFile ft mn mx =>
      if String.eqb k KeyFileTypes then
        Some (do v <- run_assign (as_string_list val ft); Ok (SFile v mn mx))
      else if String.eqb k KeyMinLength then
        Some (do v <- run_assign (to_uint val mn); Ok (SFile ft v mx))
      else if String.eqb k KeyMaxLength then
        Some (do v <- run_assign (to_uint val mx); Ok (SFile ft mn v))
      else None
    | SInteger f mn mx mu =>
      if String.eqb k KeyMinimum then
        Some (do v <- run_assign (as_int64_ptr val mn); Ok (SInteger f v mx mu))
      else if String.eqb k KeyMaximum then
        Some (do v <- run_assign (as_int64_ptr val mx); Ok (SInteger f mn v mu))
      else if String.eqb k KeyFormat then
        Some (do v <- integer_format_hat val; Ok (SInteger (Some v) mn mx mu))
      else if String.eqb k KeyMultipleOf then
        Some (do v <- run_assign (as_float64_ptr val mu); Ok (SInteger f mn mx v))
      else None
    | SNumber f mn mx mu =>
      if String.eqb k KeyMinimum then
        Some (do v <- run_assign (as_float64_ptr val mn); Ok (SNumber f v mx mu))
      else if String.eqb k KeyMaximum then
        Some (do v <- run_assign (as_float64_ptr val mx); Ok (SNumber f mn v mu))
      else if String.eqb k KeyFormat then
        Some (do v <- number_format_hat val; Ok (SNumber (Some v) mn mx mu))
      else if String.eqb k KeyMultipleOf then
        Some (do v <- run_assign (as_float64_ptr val mu); Ok (SNumber f mn mx v))
      else None
    | SObject ps mn mx ad di dv =>
      if String.eqb k KeyProperties then
        Some (do v <- read_properties ps val; Ok (SObject v mn mx ad di dv))
      else if String.eqb k KeyMinProperties then
        Some (do v <- run_assign (as_uint_ptr val mn); Ok (SObject ps v mx ad di dv))
      else if String.eqb k KeyMaxProperties then
        Some (do v <- run_assign (as_uint_ptr val mx); Ok (SObject ps mn v ad di dv))
      else if String.eqb k KeyAddtlProps then
        Some (do v <- run_assign (as_bool val ad); Ok (SObject ps mn mx v di dv))
      else if String.eqb k KeyDiscriminator then
        Some (do v <- run_assign (as_string_ptr val di); Ok (SObject ps mn mx ad v dv))
      else if String.eqb k KeyDiscriminatorVal then
        Some (Ok (SObject ps mn mx ad di (Some (GNode val))))
      else None
    | SString p mn mx =>
      if String.eqb k KeyPattern then
        Some (do v <- run_assign (as_string_ptr val p); Ok (SString v mn mx))
      else if String.eqb k KeyMinLength then
        Some (do v <- run_assign (to_uint val mn); Ok (SString p v mx))
      else if String.eqb k KeyMaxLength then
        Some (do v <- run_assign (as_uint_ptr val mx); Ok (SString p mn v))
      else None
    end.

  (** type-datatype-ext.go:75-101 assign *)
  Definition ext_assign (b : base) (x : ext) (f : amap string (amap string dtype)) (key val : node)
    : res (base * ext * amap string (amap string dtype)) :=
    let k := value key in
    if String.eqb k KeyDisplayName then
      do v <- run_assign (as_string_ptr val (x_display x));
      Ok (b, mkExt v (x_descr x) (x_anns x) (x_xml x) (x_required x), f)
    else if String.eqb k KeyDescription then
      do v <- run_assign (as_string_ptr val (x_descr x));
      Ok (b, mkExt (x_display x) v (x_anns x) (x_xml x) (x_required x), f)
    else if String.eqb k KeyFacets then
      do f' <- read_facets f val; Ok (b, x, f')
    else if String.eqb k KeyXML then
      do xm <- xml_unmarshal val new_xml;
      Ok (b, mkExt (x_display x) (x_descr x) (x_anns x) (Some xm) (x_required x), f)
    else
      do used <- (if is_string key then annotations_in k val (x_anns x) else Ok None);
      match used with
      | Some a => Ok (b, mkExt (x_display x) (x_descr x) a (x_xml x) (x_required x), f)
      | None => do b' <- base_assign b key val; Ok (b', x, f)
      end.

  (** x-gen-type-array.go:264-306 assign and its siblings (any 202-228, bool 202-233, custom 202-228, date-only 202-233,
      datetime-only 202-233, datetime 217-258, file 248-283, integer 265-312, number 265-311, object 305-348,
      string 248-288, time-only 202-233, union 202-228); DataType.go:100-113 for nil and include *)
  Definition type_assign (d : dtype) (e : node * node) : res dtype :=
    let key := fst e in
    let val := snd e in
    let k := value key in
    match d with
    | TBase b => do b' <- base_assign b key val; Ok (TBase b')
    | TExt b x f c s =>
      if String.eqb k KeyExample then
        if has_example (b_kind b) then
          do v <- read_ex (b_kind b) val;
          Ok (TExt b x f (mkCom (c_def c) (Some v) (c_examples c) (c_enum c)) s)
        else Err
      else if String.eqb k KeyExamples then
        do m <- read_examples (b_kind b) (c_examples c) val;
        Ok (TExt b x f (mkCom (c_def c) (c_example c) m (c_enum c)) s)
      else if String.eqb k KeyEnum then
        do l <- read_enum (b_kind b) (c_enum c) val;
        Ok (TExt b x f (mkCom (c_def c) (c_example c) (c_examples c) l) s)
      else if String.eqb k KeyRequired then
        do v <- run_assign (as_bool val (x_required x));
        Ok (TExt b (mkExt (x_display x) (x_descr x) (x_anns x) (x_xml x) v) f c s)
      else
        match spec_assign s k val with
        | Some r => do s' <- r; Ok (TExt b x f c s')
        | None => do r <- ext_assign b x f key val;
                  let '(b', x', f') := r in Ok (TExt b' x' f' c s)
        end
    end.

  (** fn-sorting-hat-type.go:26-58 TypeSortingHat; DataType.go:77-92 UnmarshalRAML of a mapping.  The test [util.IsNil(val)]
      of line 53 is of the pointer, which is not nil. *)
  Definition hat_body (n : node) : res dtype :=
    if is_string n then Ok (type_to_kind (value n))
    else
      match n with
      | Seq _ _ => Err
      | Map _ l => do d <- sift_type l; fold_res type_assign d l
      | Scal TInclude v => Ok (set_schema v (new_type TyInclude))
      | Scal _ _ => Err
      end.
End Assign.

(** fn-sorting-hat-type.go:26-58 TypeSortingHat *)
Fixpoint hat {F : FloatIO} (n : node) {struct n} : res dtype := hat_body (fun v => hat v) n.
