(** v0/internal/raml/x-gen-ex-*.go: the 14 example types.  They are instances of one template; lines are those of
    x-gen-ex-string.go.  They differ in the type of the value and in [assignVal]. *)
From Coq Require Import SpecFloat.
From Verif Require Import Base Num OMap OMapSpec Keys Yaml Values Assign Meta Out.

(** 27-34 the struct.  [ex_value]: the pointer to the value; for array examples a slice. *)
Record ex : Type := mkEx {
  ex_display : option string;
  ex_descr : option string;
  ex_anns : amap string untyped;
  ex_value : option gval;
  ex_strict : bool;
  ex_extra : amap gkey gval
}.

(** 16-22 NewStringExample *)
Definition new_ex : ex := mkEx None None anew_unordered None ExampleDefaultStrict anew_unordered.

(** fn-sorting-hat-example.go:12-45 ExampleSortingHat: the kinds an example can be made for *)
Definition has_example (k : dkind) : bool :=
  match k with TyAny | TyNil | TyInclude => false | _ => true end.

(** assignVal: x-gen-ex-string.go:191-198 (also dateonly, datetime, datetimeonly, timeonly); x-gen-ex-any.go:191-196 (also
    custom, file, object, union); x-gen-ex-array.go:191-197; x-gen-ex-bool.go, x-gen-ex-integer.go, x-gen-ex-number.go:191-199.
    There are no examples of the kinds nil and include. *)
Definition ex_val {F : FloatIO} (k : dkind) (n : node) : res gval :=
  match k with
  | TyString | TyDateOnly | TyDatetime | TyDatetimeOnly | TyTimeOnly => do s <- to_str n; Ok (GStr s)
  | TyAny | TyCustom | TyFile | TyObject | TyUnion => Ok (GNode n)
  | TyArray => match n with Seq _ l => Ok (GList (map GNode l)) | _ => Err end
  | TyBool => do b <- to_bool n; Ok (GBool b)
  | TyInteger => do z <- to_int n; Ok (GInt z)
  | TyNumber => do f <- to_float n; Ok (GFloat f)
  | TyNil | TyInclude => Err
  end.

Definition ex_set_extra (e : ex) (k : gkey) (v : node) : ex :=
  mkEx (ex_display e) (ex_descr e) (ex_anns e) (ex_value e) (ex_strict e) (kput k (GNode v) (ex_extra e)).

(** 144-181 assign.  [key.Value[0]] panics on an empty key. *)
Definition ex_assign {F : FloatIO} (kd : dkind) (e : ex) (p : node * node) : res ex :=
  let key := fst p in
  let val := snd p in
  if negb (is_string key) then
    do ver <- to_scalar key; Ok (ex_set_extra e ver val)
  else
    match value key with
    | EmptyString => Panic
    | String c _ =>
      if Ascii.eqb c "(" then
        do tmp <- read_annotation val;
        Ok (mkEx (ex_display e) (ex_descr e) (mput (value key) tmp (ex_anns e)) (ex_value e) (ex_strict e) (ex_extra e))
      else if String.eqb (value key) KeyDisplayName then
        do v <- run_assign (as_string_ptr val (ex_display e));
        Ok (mkEx v (ex_descr e) (ex_anns e) (ex_value e) (ex_strict e) (ex_extra e))
      else if String.eqb (value key) KeyDescription then
        do v <- run_assign (as_string_ptr val (ex_descr e));
        Ok (mkEx (ex_display e) v (ex_anns e) (ex_value e) (ex_strict e) (ex_extra e))
      else if String.eqb (value key) KeyStrict then
        do v <- run_assign (as_bool val (ex_strict e));
        Ok (mkEx (ex_display e) (ex_descr e) (ex_anns e) (ex_value e) v (ex_extra e))
      else if String.eqb (value key) KeyValue then
        do v <- ex_val kd val;
        Ok (mkEx (ex_display e) (ex_descr e) (ex_anns e) (Some v) (ex_strict e) (ex_extra e))
      else
        do ver <- to_scalar key; Ok (ex_set_extra e ver val)
    end.

(** 115-122 UnmarshalRAML *)
Definition ex_unmarshal {F : FloatIO} (kd : dkind) (n : node) (e : ex) : res ex :=
  match n with
  | Map _ l => fold_res (ex_assign kd) e l
  | _ => do v <- ex_val kd n;
         Ok (mkEx (ex_display e) (ex_descr e) (ex_anns e) (Some v) (ex_strict e) (ex_extra e))
  end.

Definition read_ex {F : FloatIO} (kd : dkind) (n : node) : res ex := ex_unmarshal kd n new_ex.

(** 183-189 expand *)
Definition ex_expand (e : ex) : bool :=
  match ex_display e with Some _ => true | None => false end ||
  match ex_descr e with Some _ => true | None => false end ||
  nonempty (ex_anns e) || nonempty (ex_extra e) ||
  negb (Bool.eqb (ex_strict e) ExampleDefaultStrict).

(** A pointer handed to ToYamlNode. *)
Definition opt_node {F : FloatIO} (v : option gval) : res node :=
  match v with Some g => to_node g | None => Ok null_node end.

(** 124-142 MarshalRAML; the flag says "short form" *)
Definition ex_marshal {F : FloatIO} (e : ex) (o : outm) : outm * bool :=
  if ex_expand e then
    let o := oput_opt (KStr KeyDisplayName) (option_map (fun s => Ok (str_node s)) (ex_display e)) o in
    let o := oput_opt (KStr KeyDescription) (option_map (fun s => Ok (str_node s)) (ex_descr e)) o in
    let o := oput_opt (KStr KeyValue) (option_map to_node (ex_value e)) o in
    let o := oput_if (negb (Bool.eqb (ex_strict e) ExampleDefaultStrict)) (KStr KeyStrict) (Ok (bool_node (ex_strict e))) o in
    let o := oput_all KStr untyped_to_yaml (ents (ex_anns e)) o in
    let o := oput_all (fun k => k) to_node (ents (ex_extra e)) o in
    (o, false)
  else (oput (KStr EmptyString) (opt_node (ex_value e)) o, true).

(** 107-113 ToYAML: the short flag is ignored *)
Definition ex_to_yaml {F : FloatIO} (e : ex) : res node := out_to_yaml (fst (ex_marshal e [])).

(** util-ex-map.go:9-258 UnmarshalXExampleMapRAML *)
Definition read_examples {F : FloatIO} (kd : dkind) (m : amap string ex) (n : node) : res (amap string ex) :=
  read_amap (read_ex kd) m n.
