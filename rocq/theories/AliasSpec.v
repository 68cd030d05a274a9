(** Documents with anchors, aliases and merge keys, and what YAML says they mean.  Written without the model's readers. *)
From Coq Require Import SpecFloat.
From Verif Require Import Base Num OMap OMapSpec Keys Yaml Values Assign Meta Out Xml Example DataType Doc Api Library.

(** A document as it is written: a node may have an anchor (& and a name), and in the place of a node there may be an alias (an asterisk and a name). *)
Inductive text : Type :=
| WScal (anchor : option string) (t : tag) (v : string)
| WSeq (anchor : option string) (t : tag) (l : list text)
| WMap (anchor : option string) (t : tag) (l : list (text * text))
| WAlias (name : string).

(** What yaml.v3 hands to the readers: an alias is a node of its own kind, with no content and with the name as its value, so no reader takes it for a
    mapping or a sequence.  [tag_of]: the tag that is seen when the readers ask for it.  The anchors are left out. *)
Fixpoint seen (tag_of : string -> tag) (d : text) : node :=
  match d with
  | WScal _ t v => Scal t v
  | WSeq _ t l => Seq t (map (seen tag_of) l)
  | WMap _ t l => Map t (map (fun e => (seen tag_of (fst e), seen tag_of (snd e))) l)
  | WAlias name => Scal (tag_of name) name
  end.

(** yaml.v3 leaves the field Tag of an alias empty (contract 10). *)
Definition no_tag : tag := TOther "".
Definition untagged (name : string) : tag := no_tag.

(** ** The document written out in full *)

(** A merge key brings the entries of its mapping that are not there already. *)
Definition is_merge (k : node) : bool := match node_tag k with TMerge => true | _ => false end.
Definition merged (l : list (node * node)) : list (node * node) :=
  flat_map (fun e =>
    match is_merge (fst e), snd e with
    | true, Map _ m => filter (fun q => negb (existsb (fun r => String.eqb (value (fst r)) (value (fst q))) l)) m
    | _, _ => [e]
    end) l.

(** [names]: what each name stands for. *)
Fixpoint full (names : string -> node) (d : text) : node :=
  match d with
  | WScal _ t v => Scal t v
  | WSeq _ t l => Seq t (map (full names) l)
  | WMap _ t l => Map t (merged (map (fun e => (full names (fst e), full names (snd e))) l))
  | WAlias name => names name
  end.

(** The anchored parts of a document. *)
Definition anchor_of (d : text) : option string := match d with WScal a _ _ | WSeq a _ _ | WMap a _ _ => a | WAlias _ => None end.
Fixpoint parts (d : text) : list text :=
  d :: match d with
       | WSeq _ _ l => flat_map parts l
       | WMap _ _ l => flat_map (fun e => parts (fst e) ++ parts (snd e)) l
       | _ => []
       end.

(** The aliases are those of the document: each stands for a part with its anchor, written out in full; no name is given to two different parts. *)
Definition stands_for (names : string -> node) (d : text) : Prop :=
  (forall p a, In p (parts d) -> anchor_of p = Some a -> full names p = names a) /\
  (forall a, In (WAlias a) (parts d) -> exists p, In p (parts d) /\ anchor_of p = Some a).

(** The property: an alias is the same as what it stands for. *)
Definition means_the_same {A} (tag_of : string -> tag) (read : node -> res A) : Prop :=
  forall names d, stands_for names d -> read (seen tag_of d) = read (full names d).

(** ** Conditions *)

(** No merge key; nothing but an alias is without a tag. *)
Definition no_merge (d : text) : Prop :=
  forall a t l k v, In (WMap a t l) (parts d) -> In (k, v) l -> match k with WScal _ t _ | WSeq _ t _ | WMap _ t _ => t <> TMerge | WAlias _ => False end.
Definition tagged (d : text) : Prop := forall a t v, In (WScal a t v) (parts d) -> t <> no_tag.
Definition no_alias (d : text) : Prop := forall name, ~ In (WAlias name) (parts d).

(** ** What a reader keeps as it is *)

Definition is_alias (n : node) : bool := match n with Scal (TOther EmptyString) _ => true | _ => false end.

(** [n] with each alias written out. *)
Fixpoint write_out (names : string -> node) (n : node) : node :=
  match n with
  | Scal (TOther EmptyString) name => names name
  | Scal t v => Scal t v
  | Seq t l => Seq t (map (write_out names) l)
  | Map t l => Map t (map (fun e => (write_out names (fst e), write_out names (snd e))) l)
  end.

(** The same in what was loaded: the values that are kept as nodes. *)
Section Kept.
  Variable names : string -> node.
  Let out := write_out names.

  Fixpoint out_val (v : gval) : gval :=
    match v with
    | GNode n => GNode (out n)
    | GList l => GList (map out_val l)
    | v => v
    end.
  Definition out_map {K A B} (f : A -> B) (m : amap K A) : amap K B := mkMap (map (fun e => (fst e, f (snd e))) (ents m)) (oord m).
  Definition out_untyped (m : untyped) : untyped := out_map out_val m.
  Definition out_ex (e : ex) : ex :=
    mkEx (ex_display e) (ex_descr e) (out_map out_untyped (ex_anns e)) (option_map out_val (ex_value e)) (ex_strict e) (out_map out_val (ex_extra e)).
  Definition out_xml (x : xml) : xml :=
    mkXml (xml_attr x) (xml_wrap x) (xml_name x) (xml_ns x) (xml_pref x) (map (fun e => (fst e, out (snd e))) (xml_extra x)).
  Definition out_base (b : base) : base := mkBase (b_schema b) (b_kind b) (out_map out_val (b_extra b)).
  Definition out_ext (x : ext) : ext :=
    mkExt (x_display x) (x_descr x) (out_map out_untyped (x_anns x)) (option_map out_xml (x_xml x)) (x_required x).
  Definition out_common (c : common) : common :=
    mkCom (option_map out_val (c_def c)) (option_map out_ex (c_example c)) (out_map out_ex (c_examples c)) (option_map (map out_val) (c_enum c)).
  Definition out_spec {A B} (f : A -> B) (s : spec A) : spec B :=
    match s with
    | SNone => SNone
    | SArray u mn mx it => SArray u mn mx (option_map f it)
    | SDatetime fm => SDatetime fm
    | SFile ft mn mx => SFile ft mn mx
    | SInteger fm mn mx mu => SInteger fm mn mx mu
    | SNumber fm mn mx mu => SNumber fm mn mx mu
    | SObject ps mn mx ad di dv => SObject (out_map f ps) mn mx ad di (option_map out_val dv)
    | SString p mn mx => SString p mn mx
    end.
  Fixpoint out_type (d : dtype) : dtype :=
    match d with
    | TBase b => TBase (out_base b)
    | TExt b x f c s => TExt (out_base b) (out_ext x) (out_map (out_map (fun d => out_type d)) f) (out_common c) (out_spec (fun d => out_type d) s)
    end.
  Definition out_doc (d : doc) : doc := mkDoc (doc_title d) (doc_content d) (out_map out_val (doc_extra d)).
  Definition out_api (a : api) : api :=
    mkApi (a_title a) (a_description a) (a_version a) (a_baseURI a) (out_untyped (a_baseURIParameters a)) (a_protocols a) (a_mediaType a)
      (option_map (map out_doc) (a_documentation a)) (out_map out_type (a_types a)) (out_untyped (a_traits a)) (out_untyped (a_resourceTypes a))
      (out_untyped (a_annotationTypes a)) (out_map out_untyped (a_annotations a)) (out_untyped (a_securitySchemes a)) (a_securedBy a) (a_uses a)
      (out_untyped (a_resources a)) (out_map out_val (a_extra a)).
  Definition out_lib (l : library) : library :=
    mkLib (out_map out_untyped (l_annotations l)) (out_untyped (l_annotationTypes l)) (out_map out_val (l_extra l)) (l_uses l) (out_untyped (l_resourceTypes l))
      (out_untyped (l_securitySchemes l)) (out_untyped (l_traits l)) (out_map out_type (l_types l)) (l_usage l).
End Kept.

(** No alias is a key, an example, or the title or content of a page: there the readers take the alias for something else. *)
Fixpoint aliases_apart (n : node) : Prop :=
  let each := fix each (l : list (node * node)) : Prop :=
    match l with
    | [] => True
    | (k, v) :: t =>
      (is_alias k = false /\ aliases_apart v /\
       (is_alias v = true -> ~ In (value k) ["example"; "title"; "content"]) /\
       (value k = "examples" -> match v with Map _ m => Forall (fun e => is_alias (snd e) = false) m | _ => True end)) /\ each t
    end in
  match n with
  | Scal _ _ => True
  | Seq _ l => (fix all (l : list node) : Prop := match l with [] => True | v :: t => aliases_apart v /\ all t end) l
  | Map _ l => each l
  end.

(** Nothing is taken for a floating-point number that has no tag. *)
Definition no_number {F : FloatIO} : Prop := forall s, float_of no_tag s = None.
