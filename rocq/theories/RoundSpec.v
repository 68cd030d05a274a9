(** Vocabulary of C31, C32, C41 and C42: when two type definitions are the same, and which come back from what they are written as. *)
From Coq Require Import SpecFloat.
From Verif Require Import Base Num OMap OMapSpec Keys Yaml Values Assign Formats Meta Out Xml Example DataType AssignProofs TypeFacts Fields
  FacetSpec Segs Same ExRound WriteSpec.

(** ** The same *)

(** Values of a getter; [R] is for the types inside.  An empty enumeration and none count as the same. *)
Inductive same_fval {F : FloatIO} (R : dtype -> dtype -> Prop) (k : dkind) : fval -> fval -> Prop :=
| same_equal v : same_fval R k v v
| same_val a b : same_value a b -> same_fval R k (VOptVal (Some a)) (VOptVal (Some b))
| same_vals a b : Forall2 (same_of k) (opt_list a) (opt_list b) -> same_fval R k (VVals a) (VVals b)
| same_item a b : R a b -> same_fval R k (VOptType (Some a)) (VOptType (Some b))
| same_types m m' : Forall2 (fun a b => fst a = fst b /\ R (snd a) (snd b)) (ents m) (ents m') -> same_fval R k (VTypes m) (VTypes m')
| same_facets m m' :
    Forall2 (fun a b => fst a = fst b /\
               Forall2 (fun c d => fst c = fst d /\ R (snd c) (snd d)) (ents (snd a)) (ents (snd b))) (ents m) (ents m') ->
    same_fval R k (VFacets m) (VFacets m')
| same_anns m m' : same_map (same_map same_value) m m' -> same_fval R k (VAnns m) (VAnns m')
| same_one_ex a b : same_ex k a b -> same_fval R k (VEx (Some a)) (VEx (Some b))
| same_exs m m' : same_map (same_ex k) m m' -> same_fval R k (VExs m) (VExs m')
| same_extra m m' : same_map same_value m m' -> same_fval R k (VExtra m) (VExtra m').

(** The same kind, the same getters and the same answers. *)
Inductive same_type {F : FloatIO} : dtype -> dtype -> Prop :=
| same_type_getters d d' : d_kind d = d_kind d' ->
    (forall f v, getf f d = Some v -> exists w, getf f d' = Some w /\ same_fval same_type (d_kind d) v w) ->
    (forall f, getf f d = None -> getf f d' = None) ->
    same_type d d'.

(** ** What comes back *)

(** An element of an enumeration of the Go type that belongs to the kind, and representable. *)
Definition enum_returns {F : FloatIO} (k : dkind) (v : gval) : Prop :=
  match k with
  | TyString | TyDateOnly | TyDatetime | TyDatetimeOnly | TyTimeOnly => exists s, v = GStr s
  | TyBool => exists b, v = GBool b
  | TyInteger => exists z, v = GInt z /\ (- 2 ^ 63 <= z <= 2 ^ 63 - 1)%Z
  | TyNumber => exists f, v = GFloat f /\ denotes_float (float_node f) f
  | _ => exists n, to_node v = Ok n
  end.

Definition signed (f : field) : bool := match f with FMinimum | FMaximum => true | _ => false end.

(** The values of a field that come back; [P] is for the types inside. *)
Inductive field_returns {F : FloatIO} (P : dtype -> Prop) (k : dkind) (f : field) : fval -> Prop :=
| ret_str s : field_returns P k f (VStr s)
| ret_optstr o : field_returns P k f (VOptStr o)
| ret_bool b : field_returns P k f (VBool b)
| ret_int z : (0 <= z <= 2 ^ 63 - 1)%Z -> field_returns P k f (VInt z)
| ret_optint o : (forall z, o = Some z -> (- 2 ^ 63 <= z <= 2 ^ 63 - 1)%Z /\ (signed f = false -> (0 <= z)%Z)) -> field_returns P k f (VOptInt o)
| ret_optfloat o : (forall x, o = Some x -> denotes_float (float_node x) x) -> field_returns P k f (VOptFloat o)
| ret_strs o : field_returns P k f (VStrs o)
| ret_optval o : (forall v, o = Some v -> f <> FDefault /\ exists n, to_node v = Ok n) -> field_returns P k f (VOptVal o)
| ret_vals o : (forall v, In v (opt_list o) -> enum_returns k v) -> field_returns P k f (VVals o)
| ret_type o : (forall t, o = Some t -> P t) -> field_returns P k f (VOptType o)
| ret_types m : (ents m <> [] -> oord m = false) -> NoDup (map fst (ents m)) ->
    (forall s t, In (s, t) (ents m) -> P t /\ d_kind t <> TyNil /\ d_kind t <> TyInclude) -> field_returns P k f (VTypes m)
| ret_facets m : (ents m <> [] -> oord m = false) -> NoDup (map fst (ents m)) ->
    (forall s m', In (s, m') (ents m) -> oord m' = false /\ NoDup (map fst (ents m'))) ->
    (forall s m' s' t, In (s, m') (ents m) -> In (s', t) (ents m') -> P t) -> field_returns P k f (VFacets m)
| ret_anns m : (forall s a, In (s, a) (ents m) -> starts_paren s = true /\ ann_returns a) -> field_returns P k f (VAnns m)
| ret_xml o : (forall x, o = Some x -> x = new_xml) -> field_returns P k f (VXml o)
| ret_ex o : (forall e, o = Some e -> has_example k = true /\ more_than_value e /\ ex_returns k e) -> field_returns P k f (VEx o)
| ret_exs m : (ents m <> [] -> oord m = false) -> NoDup (map fst (ents m)) ->
    (forall s e, In (s, e) (ents m) -> more_than_value e /\ ex_returns k e) -> field_returns P k f (VExs m)
| ret_extra m : (forall a v, In (a, v) (ents m) -> exists s n, a = KStr s /\ to_node v = Ok n /\
                   (k <> TyNil -> s <> "" /\ starts_paren s = false) /\ ~ In s (known_keys k)) -> field_returns P k f (VExtra m).

(** The type string has the kind; an include has nothing but its path; every field comes back. *)
Inductive type_returns {F : FloatIO} : dtype -> Prop :=
| returns d : tidy d -> (d_kind d <> TyInclude -> named (d_type d) (d_kind d)) -> (d_kind d = TyInclude -> ents (d_extra d) = []) ->
    (forall f v, getf f d = Some v -> field_returns type_returns (d_kind d) f v) -> type_returns d.
