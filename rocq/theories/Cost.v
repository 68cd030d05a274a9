(** How often loading looks at something: at an entry or item of the document, in a loop, or at an entry of a map it fills.

    A step of a loader is [assign] of DataType.v, Example.v, Api.v, ...; here is what the step costs, in looks, given the object it finds.
    Put of a key that is not there looks at no entry of the map; of a key that is there, at all of them (C94).  What is counted too: one look for
    each entry of a mapping and each item of a sequence that is gone through (a list that is left on an error is counted whole), and the
    entries that siftType goes through.  The work on a single key or value, and in Go's own maps and slices, is not counted. *)
From Coq Require Import SpecFloat.
From Verif Require Import Base Num OMap OMapSpec Keys Yaml Values Assign Formats Meta Out Xml Example DataType Doc Api Library.

(** AnyMap.go:159-164 Put, with Delete and IndexOf *)
Definition put_cost {K V} (keq : K -> K -> bool) (k : K) (m : amap K V) : nat :=
  if shas keq k (ents m) then List.length (ents m) else 0%nat.

(** A loop that ends at the first error: one look at each element it comes to, and what the step costs. *)
Definition fold_cost {A S} (f : S -> A -> res S) (cost : S -> A -> nat) : S -> list A -> nat :=
  fix fold_cost s l :=
    match l with
    | [] => 0%nat
    | a :: t => (1 + cost s a + match f s a with Ok s' => fold_cost s' t | _ => 0 end)%nat
    end.

Definition map_cost {S} (f : S -> node * node -> res S) (cost : S -> node * node -> nat) (s : S) (n : node) : nat :=
  match n with Map _ l => fold_cost f cost s l | _ => 0%nat end.

(** a sequence of values that are looked at once each *)
Definition items_cost (n : node) : nat := match n with Seq _ l => List.length l | _ => 0%nat end.

(** util-dt-map.go:9-39 and the other readers of maps: the value is read, then Put *)
Definition pair_cost {V} (dec : node -> res V) (dcost : node -> nat) (m : amap string V) (e : node * node) : nat :=
  match to_str (fst e) with
  | Ok k => (dcost (snd e) + match dec (snd e) with Ok _ => put_cost String.eqb k m | _ => 0 end)%nat
  | _ => 0%nat
  end.
Definition amap_cost {V} (dec : node -> res V) (dcost : node -> nat) (m : amap string V) (n : node) : nat :=
  map_cost (read_amap_pair dec) (pair_cost dec dcost) m n.
Definition free_cost (n : node) : nat := 0%nat.

(** util-untyped-map.go:10-20 *)
Definition annotation_cost (n : node) : nat := amap_cost as_gnode free_cost anew n.

(** x-gen-ex-string.go:144-181, and 191-198 of the array's *)
Definition ex_assign_cost {F : FloatIO} (kd : dkind) (e : ex) (p : node * node) : nat :=
  let key := fst p in
  let val := snd p in
  let extra := match to_scalar key with Ok s => put_cost gkey_eqb s (ex_extra e) | _ => 0%nat end in
  if negb (is_string key) then extra
  else
    match value key with
    | EmptyString => 0%nat
    | String c _ =>
      if Ascii.eqb c "(" then (annotation_cost val + match read_annotation val with Ok _ => put_cost String.eqb (value key) (ex_anns e) | _ => 0 end)%nat
      else if String.eqb (value key) KeyDisplayName then 0%nat
      else if String.eqb (value key) KeyDescription then 0%nat
      else if String.eqb (value key) KeyStrict then 0%nat
      else if String.eqb (value key) KeyValue then items_cost val
      else extra
    end.
Definition ex_cost {F : FloatIO} (kd : dkind) (n : node) : nat :=
  match n with
  | Map _ l => fold_cost (ex_assign kd) (ex_assign_cost kd) new_ex l
  | _ => items_cost n
  end.

(** type-xml.go:97-132: the other settings are kept in a Go map *)
Definition xml_cost (n : node) : nat := match n with Map _ l => List.length l | _ => 0%nat end.

Section Assign.
  Context {F : FloatIO}.
  (** TypeSortingHat on the nodes below, and what it costs *)
  Variable hat : node -> res dtype.
  Variable hcost : node -> nat.

  (** DataType.go:100-113 *)
  Definition base_cost (b : base) (key : node) : nat :=
    if String.eqb (value key) KeyType || String.eqb (value key) KeySchema then 0%nat
    else put_cost gkey_eqb (KStr (value key)) (b_extra b).

  (** the second switch of the assign methods (spec_assign): the cases that read more than one value *)
  Definition spec_cost (s : spec dtype) (k : string) (val : node) : nat :=
    match s with
    | SArray _ _ _ _ => if String.eqb k KeyItems then hcost val else 0%nat
    | SFile _ _ _ => if String.eqb k KeyFileTypes then items_cost val else 0%nat
    | SObject ps _ _ _ _ _ => if String.eqb k KeyProperties then amap_cost (fun v => do d <- hat v; as_property d) hcost ps val else 0%nat
    | _ => 0%nat
    end.

  (** type-datatype-ext.go:75-101 *)
  Definition ext_cost (b : base) (x : ext) (f : amap string (amap string dtype)) (key val : node) : nat :=
    let k := value key in
    if String.eqb k KeyDisplayName then 0%nat
    else if String.eqb k KeyDescription then 0%nat
    else if String.eqb k KeyFacets then amap_cost (DataType.read_types hat anew) (amap_cost hat hcost anew) f val
    else if String.eqb k KeyXML then xml_cost val
    else if is_string key then
      match k with
      | EmptyString => 0%nat
      | String c _ =>
        if Ascii.eqb c "(" then (annotation_cost val + match read_annotation val with Ok _ => put_cost String.eqb k (x_anns x) | _ => 0 end)%nat
        else base_cost b key
      end
    else base_cost b key.

  (** x-gen-type-array.go:264-306 assign and its siblings *)
  Definition type_cost (d : dtype) (e : node * node) : nat :=
    let key := fst e in
    let val := snd e in
    let k := value key in
    match d with
    | TBase b => base_cost b key
    | TExt b x f c s =>
      if String.eqb k KeyExample then if has_example (b_kind b) then ex_cost (b_kind b) val else 0%nat
      else if String.eqb k KeyExamples then amap_cost (read_ex (b_kind b)) (ex_cost (b_kind b)) (c_examples c) val
      else if String.eqb k KeyEnum then items_cost val
      else if String.eqb k KeyRequired then 0%nat
      else
        match spec_assign hat s k val with
        | Some _ => spec_cost s k val
        | None => ext_cost b x f key val
        end
    end.

  (** fn-sorting-hat-type.go:26-58, 113-157: siftType goes through the entries at most once *)
  Definition hat_cost_body (n : node) : nat :=
    if is_string n then 0%nat
    else
      match n with
      | Map _ l => (List.length l + match sift_type l with Ok d => fold_cost (type_assign hat) type_cost d l | _ => 0 end)%nat
      | _ => 0%nat
      end.
End Assign.

Fixpoint hat_cost {F : FloatIO} (n : node) {struct n} : nat := hat_cost_body hat (fun v => hat_cost v) n.

Section Documents.
  Context {F : FloatIO}.

  (** Documentation.go:49-65 *)
  Definition doc_assign_cost (d : doc) (e : node * node) : nat :=
    if String.eqb (value (fst e)) KeyTitle then 0%nat
    else if String.eqb (value (fst e)) KeyContent then 0%nat
    else match to_scalar (fst e) with Ok k => put_cost gkey_eqb k (doc_extra d) | _ => 0%nat end.
  Definition doc_cost (n : node) : nat := map_cost doc_assign doc_assign_cost new_doc n.
  Definition docs_cost (n : node) (old : option (list doc)) : nat :=
    match n with Seq _ l => fold_cost read_doc (fun _ => doc_cost) old l | _ => 0%nat end.

  (** APISpec.go:372-447 *)
  Definition api_cost (a : api) (e : node * node) : nat :=
    let k := value (fst e) in
    let v := snd e in
    let extra := match to_scalar (fst e) with Ok s => put_cost gkey_eqb s (a_extra a) | _ => 0%nat end in
    if negb (is_string (fst e)) then extra
    else
      match k with
      | EmptyString => 0%nat
      | String c _ =>
        if Ascii.eqb c "(" then (annotation_cost v + match read_annotation v with Ok _ => put_cost String.eqb k (a_annotations a) | _ => 0 end)%nat
        else if Ascii.eqb c "/" then put_cost String.eqb k (a_resources a)
        else if String.eqb k KeyTitle then 0%nat
        else if String.eqb k KeyVersion then 0%nat
        else if String.eqb k KeyBaseURI then 0%nat
        else if String.eqb k KeyDescription then 0%nat
        else if String.eqb k KeyProtocols then items_cost v
        else if String.eqb k KeyMediaType then items_cost v
        else if String.eqb k KeyDocumentation then docs_cost v (a_documentation a)
        else if String.eqb k KeySecuredBy then items_cost v
        else if String.eqb k KeyUses then amap_cost to_str free_cost (a_uses a) v
        else if String.eqb k KeySecuritySchemes then amap_cost as_gnode free_cost (a_securitySchemes a) v
        else if String.eqb k KeyBaseURIParams then amap_cost as_gnode free_cost (a_baseURIParameters a) v
        else if String.eqb k KeyTraits then amap_cost as_gnode free_cost (a_traits a) v
        else if String.eqb k KeyAnnotationTypes then amap_cost as_gnode free_cost (a_annotationTypes a) v
        else if String.eqb k KeyResourceTypes then amap_cost as_gnode free_cost (a_resourceTypes a) v
        else if String.eqb k KeyTypes || String.eqb k KeySchemas then amap_cost hat hat_cost (a_types a) v
        else extra
      end.
  Definition api_load_cost (n : node) (a : api) : nat := map_cost api_assign api_cost a n.

  (** Library.go:212-246 *)
  Definition lib_cost (l : library) (e : node * node) : nat :=
    let k := value (fst e) in
    let v := snd e in
    if String.eqb k KeyAnnotationTypes then amap_cost read_annotation annotation_cost (l_annotations l) v
    else if String.eqb k KeyResourceTypes then amap_cost as_gnode free_cost (l_resourceTypes l) v
    else if String.eqb k KeyTypes || String.eqb k KeySchemas then amap_cost hat hat_cost (l_types l) v
    else if String.eqb k KeyTraits then amap_cost as_gnode free_cost (l_traits l) v
    else if String.eqb k KeyUses then amap_cost to_str free_cost (l_uses l) v
    else if String.eqb k KeyUsage then 0%nat
    else if String.eqb k KeySecuritySchemes then amap_cost as_gnode free_cost (l_securitySchemes l) v
    else
      let extra := match to_scalar (fst e) with Ok s => put_cost gkey_eqb s (l_extra l) | _ => 0%nat end in
      if is_string (fst e) then
        match k with
        | EmptyString => 0%nat
        | String c _ =>
          if Ascii.eqb c "(" then (annotation_cost v + match read_annotation v with Ok _ => put_cost String.eqb k (l_annotations l) | _ => 0 end)%nat else extra
        end
      else extra.
  Definition lib_load_cost (n : node) (l : library) : nat := map_cost lib_assign lib_cost l n.
End Documents.
