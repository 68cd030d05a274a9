(** Vocabulary of C75: edits of the maps that getters return, and of the maps given to setters, that come back from what they are written as. *)
From Coq Require Import SpecFloat.
From Verif Require Import Base Num OMap OMapSpec Keys Yaml Values Assign Formats Meta Out Xml Example DataType Marshal Doc Api Library
  AssignProofs TypeFacts Fields FacetSpec Segs Same ExRound WriteSpec RoundSpec ApiFields ApiSpec ApiRoundSpec Setters SetterSpec EditSpec Live LiveSpec.

(** ** What can be saved and loaded *)

(** API documents, libraries and type definitions of a kind.  Documentation entries and examples are only saved as parts of these. *)
Inductive okind : Type := KApi | KLib | KType (k : dkind).
Definition okind_of (o : obj) : option okind :=
  match o with OApi _ => Some KApi | OLib _ => Some KLib | OType t => Some (KType (d_kind t)) | ODoc _ | OEx _ => None end.

(** The conditions of C31, C43 and C52. *)
Definition obj_returns {F : FloatIO} (o : obj) : Prop :=
  match o with OApi a => api_returns a | OLib l => lib_returns l | OType t => type_returns t | ODoc _ | OEx _ => True end.

(** The object can be saved, what is saved can be loaded, and all getters of the loaded one answer as those of the saved one. *)
Definition survives {F : FloatIO} (o : obj) : Prop :=
  match o with
  | OApi a => exists n a', api_marshal a = Ok n /\ api_unmarshal n new_api = Ok a' /\ same_api a a'
  | OLib l => exists n l', lib_marshal l = Ok n /\ lib_unmarshal n new_library = Ok l' /\ same_library l l'
  | OType t => exists n t', to_yaml t = Ok n /\ hat n = Ok t' /\ same_type t t'
  | ODoc _ | OEx _ => True
  end.

(** ** Entries *)

(** A key and a value for one of the maps. *)
Inductive entry : Type :=
| EnUntyped (k : string) (v : gval) | EnString (k s : string) | EnType (k : string) (t : dtype) | EnAnn (k : string) (a : untyped)
| EnExtra (k : gkey) (v : gval) | EnExample (k : string) (e : ex) | EnFacet (k : string) (m : amap string dtype) | EnProp (k : string) (t : dtype).

(** The entries that the map of the getter [s] can have if it is to come back. *)
Definition entry_returns {F : FloatIO} (k : okind) (s : slot) (e : entry) : Prop :=
  match s, e with
  | SUses, EnString _ _ => True
  | SAnnotationTypes, EnUntyped _ v => k <> KLib /\ has_node v                       (* a library's are not read back: C52 *)
  | SResources, EnUntyped p v => starts_slash p = true /\ has_node v
  | (SSecuritySchemes | SBaseURIParameters | STraits | SResourceTypes), EnUntyped _ v => has_node v
  | STypes, EnType _ t => type_returns t
  | SAnnotations, EnAnn p a => starts_paren p = true /\ ann_returns a
  | SExamples, EnExample _ e => forall t, k = KType t -> more_than_value e /\ ex_returns t e
  | SFacetDefinitions, EnFacet _ m => oord m = false /\ NoDup (map fst (ents m)) /\ forall p t, In (p, t) (ents m) -> type_returns t
  | SProperties, EnProp _ t => type_returns t /\ d_kind t <> TyNil /\ d_kind t <> TyInclude
  | SExtra, EnExtra a v =>
    match k with
    | KApi => key_returns a /\ has_node v /\ forall p, a = KStr p -> ~ (p = "" \/ starts_paren p = true \/ starts_slash p = true \/ In p api_names)
    | KLib => key_returns a /\ has_node v /\ (forall p, a = KStr p -> ~ (p = "" \/ starts_paren p = true)) /\
              (forall n, key_node a = Ok n -> ~ In (value n) lib_names)
    | KType t => t <> TyInclude /\ exists p, a = KStr p /\ has_node v /\ (t <> TyNil -> p <> "" /\ starts_paren p = false) /\ ~ In p (known_keys t)
    end
  | _, _ => False
  end.

(** Maps whose entries are written among the keys of the object: whether the map is to be written in order does not matter. *)
Definition unfolded (s : slot) : bool := match s with SAnnotations | SExtra | SResources => true | _ => false end.

(** ** Maps *)

(** No two keys are equal, the entries come back, and the map is written as a mapping. *)
Definition map_returns {K V} (keq : K -> K -> bool) (s : slot) (P : K -> V -> Prop) (m : amap K V) : Prop :=
  ForallOrdPairs (fun a b => keq a b = false) (map fst (ents m)) /\
  (forall a v, In (a, v) (ents m) -> P a v) /\
  (unfolded s = false -> ents m <> [] -> oord m = false).

Definition cell_returns {F : FloatIO} (k : okind) (s : slot) (c : cell) : Prop :=
  match c with
  | CUntyped m => map_returns String.eqb s (fun a v => entry_returns k s (EnUntyped a v)) m
  | CStrings m => map_returns String.eqb s (fun a v => entry_returns k s (EnString a v)) m
  | CTypes m => map_returns String.eqb s (fun a v => entry_returns k s (EnType a v)) m
  | CAnns m => map_returns String.eqb s (fun a v => entry_returns k s (EnAnn a v)) m
  | CExtra m => map_returns gkey_eqb s (fun a v => entry_returns k s (EnExtra a v)) m
  | CExamples m => map_returns String.eqb s (fun a v => entry_returns k s (EnExample a v)) m
  | CFacets m => map_returns String.eqb s (fun a v => entry_returns k s (EnFacet a v)) m
  | CProps m => map_returns String.eqb s (fun a v => entry_returns k s (EnProp a v)) m
  end.

(** ** Calls *)

(** A method of a map, as the map is now: an entry that is put comes back, and not in a map that is to be written in order. *)
Definition op_saves {K V} (s : slot) (P : K -> V -> Prop) (m : amap K V) (o : op K V) : Prop :=
  match o with
  | OPut a v | OPutIfNotNil a (Some v) | OReplaceOrPut a v => P a v /\ (unfolded s = false -> oord m = false)
  | OReplaceIfExists a v => P a v
  | OSerializeOrdered b => unfolded s = false -> ents m <> [] -> b = false
  | _ => True
  end.

Definition edit_saves {F : FloatIO} (k : okind) (s : slot) (c : cell) (e : edit) : Prop :=
  match e, c with
  | EUntyped o, CUntyped m => op_saves s (fun a v => entry_returns k s (EnUntyped a v)) m o
  | EStrings o, CStrings m => op_saves s (fun a v => entry_returns k s (EnString a v)) m o
  | ETypes o, CTypes m => op_saves s (fun a v => entry_returns k s (EnType a v)) m o
  | EAnns o, CAnns m => op_saves s (fun a v => entry_returns k s (EnAnn a v)) m o
  | EExtra o, CExtra m => op_saves s (fun a v => entry_returns k s (EnExtra a v)) m o
  | EExamples o, CExamples m => op_saves s (fun a v => entry_returns k s (EnExample a v)) m o
  | EFacets o, CFacets m => op_saves s (fun a v => entry_returns k s (EnFacet a v)) m o
  | EProps o, CProps m => op_saves s (fun a v => entry_returns k s (EnProp a v)) m o
  | _, _ => True
  end.

(** A setter that takes no map: that of C65. *)
Definition plain_saves {F : FloatIO} (k : okind) (p : plain_op) : Prop :=
  match p, k with
  | PApi op, KApi => api_saves op
  | PLib op, KLib => lib_saves op
  | PType op, KType t => type_saves t op
  | _, _ => True
  end.

(** What a program may do so that everything it has can be saved at any time: every object it makes or loads comes back, and so does all that is put into a map
    that is in some object then, or is in a map given to an object.  Maps that are in no object may have anything in them. *)
Definition call_saves {F : FloatIO} (w : memory) (c : call) : Prop :=
  match c with
  | Make o => obj_returns o
  | Edit r e => forall i s o k c, got w i s = Some r -> view w i = Some o -> okind_of o = Some k -> get_map s o = Some c -> edit_saves k s c e
  | SetMap i s (Some r) => forall o k c, view w i = Some o -> okind_of o = Some k -> nth_error (maps w) r = Some c -> cell_returns k s c
  | SetPlain i p => forall o k, view w i = Some o -> okind_of o = Some k -> plain_saves k p
  | MakeMap _ | SetMap _ _ None | UnsetMap _ _ => True
  end.
Fixpoint calls_save {F : FloatIO} (cs : list call) (w : memory) : Prop :=
  match cs with [] => True | c :: cs => call_saves w c /\ calls_save cs (perform c w) end.
