(** The vocabulary of the theorems about references (C63, C64). *)
From Coq Require Import SpecFloat Relations.
From Verif Require Import Base Num OMap OMapSpec Keys Yaml Values Assign Formats Meta Out Xml Example DataType Marshal Doc Api Library Setters Heap
  AssignProofs TypeFacts Fields FieldProofs FacetSpec FacetProofs DocProofs TypeWrite OrderProofs PathProofs.

(** The value behind a reference: the definition with all definitions below it, if it is not deeper than [depth]. *)
Definition in_spec {A B} (f : A -> option B) (s : spec A) : option (spec B) :=
  match s with
  | SNone => Some SNone
  | SArray u mn mx None => Some (SArray u mn mx None)
  | SArray u mn mx (Some a) => option_map (fun b => SArray u mn mx (Some b)) (f a)
  | SDatetime fm => Some (SDatetime fm)
  | SFile t mn mx => Some (SFile t mn mx)
  | SInteger fm mn mx mu => Some (SInteger fm mn mx mu)
  | SNumber fm mn mx mu => Some (SNumber fm mn mx mu)
  | SObject ps mn mx ad di dv => option_map (fun qs => SObject qs mn mx ad di dv) (map_some f ps)
  | SString p mn mx => Some (SString p mn mx)
  end.

Fixpoint tree (depth : nat) (w : world) (r : nat) : option dtype :=
  match depth with
  | O => None
  | S depth =>
    match load w r with
    | None => None
    | Some (ShBase b) => Some (TBase b)
    | Some (ShExt b x f c s) =>
      obind (map_some (map_some (tree depth w)) f) (fun f' => obind (in_spec (tree depth w) s) (fun s' => Some (TExt b x f' c s')))
    end
  end.

(** ** Who holds a reference to what *)

Inductive addr : Type :=
| AType (r : nat)
| AMap (m : nat)
| AFacets (f : nat).

Inductive holds (w : world) : addr -> addr -> Prop :=
| holds_facets r b x f c s : nth_error (w_types w) r = Some (HExt b x f c s) -> holds w (AType r) (AFacets f)
| holds_items r b x f c u mn mx i : nth_error (w_types w) r = Some (HExt b x f c (HArray u mn mx (Some i))) -> holds w (AType r) (AType i)
| holds_properties r b x f c p mn mx ad di dv : nth_error (w_types w) r = Some (HExt b x f c (HObject p mn mx ad di dv)) -> holds w (AType r) (AMap p)
| holds_type m mm k r : nth_error (w_maps w) m = Some mm -> In (k, r) (ents mm) -> holds w (AMap m) (AType r)
| holds_map f fm k m : nth_error (w_facets w) f = Some fm -> In (k, m) (ents fm) -> holds w (AFacets f) (AMap m).

Definition below (w : world) : addr -> addr -> Prop := clos_refl_trans addr (holds w).
Definition strictly_below (w : world) : addr -> addr -> Prop := clos_trans addr (holds w).

Definition exists_in (w : world) (a : addr) : Prop :=
  match a with
  | AType r => (r < List.length (w_types w))%nat
  | AMap m => (m < List.length (w_maps w))%nat
  | AFacets f => (f < List.length (w_facets w))%nat
  end.

(** No nil pointer below. *)
Definition complete (w : world) (a : addr) : Prop := forall b, below w a b -> exists_in w b.

(** Nothing below contains itself. *)
Definition no_cycle (w : world) (a : addr) : Prop := forall b, below w a b -> ~ strictly_below w b b.

(** The one object a call may change; new objects are not counted. *)
Definition changes (o : h_op) (a : addr) : Prop :=
  match o with
  | HNewMap | HNewFacetMap | HNewType _ => False
  | HSet r _ | HSetItems r _ | HSetProperties r _ | HSetFacetDefinitions r _ => a = AType r
  | HMap m _ => a = AMap m
  | HFacetMap f _ => a = AFacets f
  end.

(** A path of getters, through references. *)
Definition ref_hop (w : world) (p : hop) (r : nat) : option nat :=
  match nth_error (w_types w) r, p with
  | Some (HExt _ _ _ _ (HArray _ _ _ i)), Items => i
  | Some (HExt _ _ _ _ (HObject m _ _ _ _ _)), Prop_ name => obind (nth_error (w_maps w) m) (fun mm => sget String.eqb name (ents mm))
  | _, _ => None
  end.

Fixpoint ref_walk (w : world) (ps : list hop) (r : nat) : option nat :=
  match ps with
  | [] => Some r
  | p :: t => obind (ref_hop w p r) (ref_walk w t)
  end.

(** The setters that take no type. *)
Definition takes_no_type (op : type_op) : Prop :=
  match op with
  | TSetItems _ | TSetProperties _ | TUnsetProperties | TSetFacetDefinitions _ | TUnsetFacetDefinitions => False
  | _ => True
  end.

(** The call [h] is the setter [op] on the definition at [r]: a reference it is given is the value [op] is given.  The given definition must not
    contain the one it is set in. *)
Definition same_call (w : world) (h : h_op) (r : nat) (op : type_op) : Prop :=
  match h with
  | HSet r' op' => r' = r /\ op' = op /\ takes_no_type op
  | HSetItems r' None => r' = r /\ op = TSetItems None
  | HSetItems r' (Some i) => r' = r /\ exists n d, op = TSetItems (Some d) /\ tree n w i = Some d /\ ~ below w (AType i) (AType r)
  | HSetProperties r' None => r' = r /\ op = TSetProperties None
  | HSetProperties r' (Some m) =>
    r' = r /\ exists n mm ds, op = TSetProperties (Some ds) /\ nth_error (w_maps w) m = Some mm /\ map_some (tree n w) mm = Some ds /\ ~ below w (AMap m) (AType r)
  | HSetFacetDefinitions r' None => r' = r /\ op = TSetFacetDefinitions None
  | HSetFacetDefinitions r' (Some f) =>
    r' = r /\ exists n fm fs ds, op = TSetFacetDefinitions (Some ds) /\ nth_error (w_facets w) f = Some fm /\ map_some (nth_error (w_maps w)) fm = Some fs /\
      map_some (map_some (tree n w)) fs = Some ds /\ ~ below w (AFacets f) (AType r)
  | _ => False
  end.

(** Every reference is that of an object. *)
Definition whole (w : world) : Prop := forall a b, holds w a b -> exists_in w b.

(** The arguments of a call are objects, not nil; an edit of a map only adds objects. *)
Definition given_objects (w : world) (h : h_op) : Prop :=
  match h with
  | HSetItems _ (Some i) => exists_in w (AType i)
  | HSetProperties _ (Some m) => exists_in w (AMap m)
  | HSetFacetDefinitions _ (Some f) => exists_in w (AFacets f)
  | HMap m edit => forall mm e, nth_error (w_maps w) m = Some mm -> In e (ents (edit mm)) -> In e (ents mm) \/ exists_in w (AType (snd e))
  | HFacetMap f edit => forall fm e, nth_error (w_facets w) f = Some fm -> In e (ents (edit fm)) -> In e (ents fm) \/ exists_in w (AMap (snd e))
  | _ => True
  end.

Definition no_objects : world := mkWorld [] [] [].

Inductive reached : world -> Prop :=
| reached_start : reached no_objects
| reached_call w h : reached w -> given_objects w h -> reached (h_apply h w).
