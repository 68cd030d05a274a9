(** Programs that put one object into several places.  Model and vocabulary of C86. *)
From Coq Require Import SpecFloat.
From Verif Require Import Base Num OMap OMapSpec Keys Yaml Values Assign Formats Meta Out Xml Example DataType Marshal Doc Api Library TypeFacts Setters SetterSpec Live Objects.

(** ** Giving an object that is already there *)

(** The setters and map methods that are given an object.  Set stands for the setter of the field. *)
Inductive give : Type := GiveSet (f : field) | GivePut (k : string) | GivePutIfNotNil (k : string) | GiveReplaceOrPut (k : string) | GiveReplaceIfExists (k : string).

(** The method of the receiver with that argument, as far as Go's types allow it: APISpec.go:54-295, Library.go:42-159, x-gen-type-*.go, x-gen-ex-*.go (setters);
    pkg/raml/*Map.go.  Documentation is a slice and is not given. *)
Definition give_entry {A} (mk : op string A -> act) (g : give) (v : A) : option act :=
  match g with
  | GiveSet _ => None
  | GivePut k => Some (mk (OPut k v))
  | GivePutIfNotNil k => Some (mk (OPutIfNotNil k (Some v)))
  | GiveReplaceOrPut k => Some (mk (OReplaceOrPut k v))
  | GiveReplaceIfExists k => Some (mk (OReplaceIfExists k v))
  end.
Definition give_field (f : field) (receiver u : thing) : option act :=
  match receiver, u with
  | ThApi _, ThDefs m => match f with FdTypes => Some (AcApi (ASetTypes (Some m))) | _ => None end
  | ThApi _, ThUntyped m =>
    match f with
    | FdTraits => Some (AcApi (ASetTraits (Some m))) | FdResourceTypes => Some (AcApi (ASetResourceTypes (Some m)))
    | FdAnnotationTypes => Some (AcApi (ASetAnnotationTypes (Some m))) | FdSecuritySchemes => Some (AcApi (ASetSecuritySchemes (Some m))) | _ => None
    end
  | ThApi _, ThAnns m => match f with FdAnnotations => Some (AcApi (ASetAnnotations (Some m))) | _ => None end
  | ThApi _, ThStrings m => match f with FdUses => Some (AcApi (ASetUses (Some m))) | _ => None end
  | ThLib _, ThDefs m => match f with FdTypes => Some (AcLib (LSetTypes (Some m))) | _ => None end
  | ThLib _, ThUntyped m => match f with FdTraits => Some (AcLib (LSetTraits (Some m))) | FdResourceTypes => Some (AcLib (LSetResourceTypes (Some m))) | _ => None end
  | ThLib _, ThAnns m => match f with FdAnnotations => Some (AcLib (LSetAnnotations (Some m))) | _ => None end
  | ThLib _, ThStrings m => match f with FdUses => Some (AcLib (LSetUses (Some m))) | _ => None end
  | ThDef (TExt _ _ _ _ s), _ =>
    match f, u with
    | FdExample, ThEx e => Some (AcDef (TSetExample (Some e)))
    | FdExamples, ThExs m => Some (AcDef (TSetExamples (Some m)))
    | FdAnnotations, ThAnns m => Some (AcDef (TSetAnnotations (Some m)))
    | FdFacetDefinitions, ThFacets m => Some (AcDef (TSetFacetDefinitions (Some m)))
    | FdXML, ThXml x => Some (AcDef (TSetXML (Some x)))
    | FdExtraFacets, ThExtra m => Some (AcDef (TSetExtraFacets (Some m)))
    | FdItems, ThDef d => match s with SArray _ _ _ _ => Some (AcDef (TSetItems (Some d))) | _ => None end
    | FdProperties, ThDefs m => match s with SObject _ _ _ _ _ _ => Some (AcDef (TSetProperties (Some m))) | _ => None end
    | _, _ => None
    end
  | ThEx _, ThAnns m => match f with FdAnnotations => Some (AcEx (ESetAnnotations (Some m))) | _ => None end
  | _, _ => None
  end.
Definition give_act (g : give) (receiver u : thing) : option act :=
  match g with
  | GiveSet f => give_field f receiver u
  | _ =>
    match receiver, u with
    | ThDefs _, ThDef d => give_entry AcDefs g d
    | ThFacets _, ThDefs m => give_entry AcFacets g m
    | ThExs _, ThEx e => give_entry AcExs g e
    | ThAnns _, ThUntyped m => give_entry AcAnns g m
    | _, _ => None
    end
  end.
(** ... in memory: the pointer to it is stored. *)
Definition point_to (r : nat) (c : change thing) : change nat :=
  match c with
  | Sets l => Sets (map (fun e => (fst e, option_map (fun _ => r) (snd e))) l)
  | Entries (OPut k v) => Entries (OPut k (option_map (fun _ => r) v))
  | Entries (OPutIfNotNil k v) => Entries (OPutIfNotNil k (option_map (option_map (fun _ => r)) v))
  | Entries (OReplaceOrPut k v) => Entries (OReplaceOrPut k (option_map (fun _ => r) v))
  | Entries (OReplaceIfExists k v) => Entries (OReplaceIfExists k (option_map (fun _ => r) v))
  | Entries _ => Entries OLen
  end.
Definition h_give (g : give) (r ry : nat) (h : heap) : heap :=
  match nth_error h r, nth_error h ry with
  | Some o, Some oy => match give_act g (own o) (own oy) with Some a => replace_nth r (change_obj a (point_to ry (change_of a))) h | None => h end
  | _, _ => h
  end.

(** ** Programs *)

Inductive suse : Type :=
| SOpen (x : nat) (t : thing)                                  (* x := a new object *)
| STake (y x : nat) (ns : list name)                           (* y := the object that getters lead to from x *)
| SDo (x : nat) (ns : list name) (a : act)                     (* a call on the object that getters lead to from x, with new arguments *)
| SGive (x : nat) (ns : list name) (g : give) (y : nat).       (* a call on that object, which is given the object in y *)

Definition state : Type := (heap * (nat -> option nat))%type.
Definition found (s : state) (x : nat) (ns : list name) : option nat := match snd s x with Some r => h_follow (fst s) ns r | None => None end.
Definition s_step (s : state) (u : suse) : state :=
  let '(h, env) := s in
  match u with
  | SOpen x t => let '(h, r) := make (lay t) h in (h, bind_var x r env)
  | STake y x ns => (h, fun z => if Nat.eqb z y then found s x ns else env z)
  | SDo x ns a => match found s x ns with Some i => (h_act a i h, env) | None => s end
  | SGive x ns g y => match found s x ns, env y with Some i, Some r => (h_give g i r h, env) | _, _ => s end
  end.
Definition smemory (us : list suse) : state := fold_left s_step us ([], fun _ => None).
Definition suse_once (u : suse) : Prop := match u with SOpen _ t => once t | SDo _ _ a => once_act a | _ => True end.

(** ** What there is to say *)

(** Variable [x] shows [t]: to getters, and to what is saved. *)
Definition shows (s : state) (x : nat) (t : thing) : Prop :=
  exists r, snd s x = Some r /\ looks_like (fst s) r t /\ whole (fst s) r = Some t.
(** Some object that getters lead to from [x] contains itself. *)
Definition endless (s : state) (x : nat) : Prop := exists ns i n ms, found s x ns = Some i /\ h_follow (fst s) (n :: ms) i = Some i.
(** [t'] is [t], with [a] done at all the places in [here]; these are parts apart from each other. *)
Definition prefix (ms ns : list name) : Prop := exists ls, ns = ms ++ ls.
Definition edited_at_all (here : list name -> Prop) (a : act) (t t' : thing) : Prop :=
  (forall ms q, here ms -> follow ms t = Some q -> follow ms t' = Some (act_on a q)) /\
  (forall ms, (forall ns, here ns -> ~ prefix ns ms /\ ~ prefix ms ns) -> follow ms t' = follow ms t) /\
  (forall ms q, (forall ns, here ns -> ~ prefix ns ms) -> follow ms t = Some q -> exists q', follow ms t' = Some q' /\ bare q' = bare q /\ map fst (parts q') = map fst (parts q)).
(** Where the given object goes.  ReplaceIfExists does nothing if the key is not there. *)
Definition slot (g : give) : name := match g with GiveSet f => NField f | GivePut k | GivePutIfNotNil k | GiveReplaceOrPut k | GiveReplaceIfExists k => NKey k end.
Definition takes (g : give) (receiver : thing) : bool := match g with GiveReplaceIfExists k => shas name_eqb (NKey k) (parts receiver) | _ => true end.
