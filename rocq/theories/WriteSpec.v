(** Vocabulary of C33 and C34: the order of the written keys and what counts as a default. *)
From Coq Require Import SpecFloat.
From Verif Require Import Base Num OMap OMapSpec Keys Yaml Values Assign Meta Xml Example DataType TypeFacts AssignProofs Fields FacetSpec Segs.

(** The order in which the fields of a kind are written. *)
Definition own_order (k : dkind) : list field :=
  match k with
  | TyArray => [FUnique; FMinItems; FMaxItems; FItems]
  | TyDatetime => [FFormat]
  | TyFile => [FFileTypes; FMinLength; FMaxLength]
  | TyInteger | TyNumber => [FFormat; FMinimum; FMaximum; FMultipleOf]
  | TyObject => [FAddl; FMinProps; FMaxProps; FDiscr; FDiscrVal; FProps]
  | TyString => [FPattern; FMinLength; FMaxLength]
  | _ => []
  end.

Definition write_order (k : dkind) : list field :=
  match k with
  | TyNil | TyInclude => [FType; FExtra]
  | _ => [FDefault; FDisplay; FDescr; FType; FExtra; FRequired; FAnns; FFacets; FXml] ++ own_order k ++ [FEnum; FExample; FExamples]
  end.

Definition written_key (f : field) : string :=
  match f with
  | FType => "type"
  | FDefault => "default"
  | _ => match facet_key f with Some s => s | None => "" end
  end.

(** Whether a value is the default of its field. *)
Definition empty {K V} (m : amap K V) : bool := match ents m with [] => true | _ => false end.
Definition is_default (k : dkind) (f : field) (v : fval) : bool :=
  match default_value k f, v with
  | VBool a, VBool b => Bool.eqb a b
  | VInt a, VInt b => (a =? b)%Z
  | VOptStr _, VOptStr None | VOptInt _, VOptInt None | VOptFloat _, VOptFloat None | VStrs _, VStrs None
  | VOptVal _, VOptVal None | VVals _, VVals None | VOptType _, VOptType None | VXml _, VXml None | VEx _, VEx None => true
  | VTypes _, VTypes m => empty m
  | VFacets _, VFacets m => empty m
  | VExs _, VExs m => empty m
  | VAnns _, VAnns m => empty m
  | VExtra _, VExtra m => empty m
  | _, _ => false
  end.

(** The keys written for a field: those of the map for extra facets and annotations, otherwise its key unless it has its default. *)
Definition field_keys (d : dtype) (f : field) : list gkey :=
  match getf f d with
  | None => []
  | Some (VExtra m) => map fst (ents m)
  | Some (VAnns m) => map KStr (map fst (ents m))
  | Some v =>
    match f with
    | FType => [KStr "type"]
    | _ => if is_default (d_kind d) f v then [] else [KStr (written_key f)]
    end
  end.

Definition extra_keys (d : dtype) : list gkey := map fst (ents (d_extra d)).
Definition ann_keys_of (d : dtype) : list string :=
  match getf FAnns d with Some (VAnns m) => map fst (ents m) | _ => [] end.

(** The keys of the fields; `default` only if it is set, since it is not a field for the reader (C27). *)
Definition field_names (d : dtype) : list string :=
  flat_map (fun f => match f with
                     | FExtra | FAnns => []
                     | FDefault => match getf FDefault d with Some (VOptVal (Some _)) => ["default"] | _ => [] end
                     | _ => [written_key f]
                     end) (write_order (d_kind d)).

(** [tidy d]: the kind specific part belongs to the kind and the minimum length is not negative (both are so by construction in Go); the two maps
    have distinct keys (C01); no extra facet and no annotation has the name of a field or of each other. *)
Definition tidy (d : dtype) : Prop :=
  shaped d /\ (forall z, getf FMinLength d = Some (VInt z) -> (0 <= z)%Z) /\
  apart (extra_keys d) = true /\ NoDup (ann_keys_of d) /\
  (forall s, In s (field_names d) -> ~ In (KStr s) (extra_keys d) /\ ~ In s (ann_keys_of d)) /\
  (forall s, In s (ann_keys_of d) -> ~ In (KStr s) (extra_keys d)).

(** Nothing but the type. *)
Definition only_type (d : dtype) : Prop :=
  forall f v, f <> FType -> getf f d = Some v -> is_default (d_kind d) f v = true.
